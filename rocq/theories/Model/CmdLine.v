(** The command line program, wdtCmdLine.cpp, and the options it derives,
    WdtOptions.cpp. *)
From Coq Require Export ZArith List Bool.
From Verif Require Export Model.Bytes Model.Uri Model.Stats.
Import ListNotations.
Open Scope Z_scope.

(** The options modifyOptions touches. [o_block_size] is in megabytes. *)
Record options := {
  o_num_ports : Z; o_block_size : Z; o_disable_preallocation : bool; o_resume_using_dir_tree : bool;
  o_static_ports : bool; o_start_port : Z; o_enable_download_resumption : bool; o_skip_writes : bool
}.
(** WdtOptions.h:104-340. *)
Definition options_default : options :=
  {| o_num_ports := 8; o_block_size := 16; o_disable_preallocation := false; o_resume_using_dir_tree := false;
     o_static_ports := false; o_start_port := 22356; o_enable_download_resumption := false; o_skip_writes := false |}.
Inductive oname := NumPorts | BlockSize | DisablePrealloc | DirTree | StaticPorts | StartPort | Resumption | SkipWrites.
Inductive otype := Disk | Flash | OtherType.
(** modifyOptions, WdtOptions.cpp:34-59; [spec]: the options the user specified. *)
Definition modify_options (ty : otype) (spec : oname -> bool) (o : options) : options :=
  match ty with
  | Disk =>
      {| o_num_ports := if spec NumPorts then o_num_ports o else 3;
         o_block_size := if spec BlockSize then o_block_size o else -1;
         o_disable_preallocation := if spec DisablePrealloc then o_disable_preallocation o else true;
         o_resume_using_dir_tree := if spec DirTree then o_resume_using_dir_tree o else true;
         o_static_ports := o_static_ports o; o_start_port := o_start_port o;
         o_enable_download_resumption := o_enable_download_resumption o; o_skip_writes := o_skip_writes o |}
  | Flash | OtherType =>
      if spec StartPort && negb (o_static_ports o) then
        {| o_num_ports := o_num_ports o; o_block_size := o_block_size o;
           o_disable_preallocation := o_disable_preallocation o; o_resume_using_dir_tree := o_resume_using_dir_tree o;
           o_static_ports := true; o_start_port := o_start_port o;
           o_enable_download_resumption := o_enable_download_resumption o; o_skip_writes := o_skip_writes o |}
      else o
  end.
(** WdtOptions.cpp:61-75; [falloc]: HAS_POSIX_FALLOCATE. *)
Definition should_preallocate (falloc : bool) (o : options) : bool := if falloc then negb (o_disable_preallocation o) else false.
Definition log_based (o : options) : bool := o_enable_download_resumption o && negb (o_resume_using_dir_tree o).
Definition tree_based (o : options) : bool := o_enable_download_resumption o && o_resume_using_dir_tree o.
(** The checks of Receiver::init, Receiver.cpp:139-146. *)
Definition init_checks (falloc : bool) (o : options) : outcome unit :=
  if o_enable_download_resumption o then
    if o_skip_writes o then Crash
    else if o_resume_using_dir_tree o then if should_preallocate falloc o then Crash else Ret tt else Ret tt
  else Ret tt.

(** folly::split on one character, all pieces. *)
Fixpoint pieces (sep : Z) (s : list Z) : list (list Z) :=
  match s with
  | [] => [[]]
  | c :: r => if c =? sep then [] :: pieces sep r
              else match pieces sep r with p :: ps => (c :: p) :: ps | [] => [[c]] end
  end.
(** with ignoreEmpty *)
Definition fields_of (line : list Z) : list (list Z) :=
  filter (fun p => match p with [] => false | _ => true end) (pieces 9 line).
(** The lines std::getline gives: what follows the last newline only if it is not empty. *)
Fixpoint no_last_empty (l : list (list Z)) : list (list Z) :=
  match l with
  | [] => []
  | [[]] => []
  | x :: r => x :: no_last_empty r
  end.
Definition lines_of (text : list Z) : list (list Z) := no_last_empty (pieces 10 text).
(** One line, wdtCmdLine.cpp:146-153: LOG(FATAL) and an exception nobody catches end the
    process. *)
Definition manifest_line (direct : bool) (line : list Z) : outcome (list Z * Z * bool) :=
  match fields_of line with
  | [n] => Ret (n, -1, direct)
  | [n; s] => match parse_i64 s with Some z => Ret (n, z, direct) | None => Crash end
  | [n; s; d] => match parse_i64 s with
                 | Some z => match parse_bool d with Some b => Ret (n, z, b) | None => Crash end
                 | None => Crash
                 end
  | _ => Crash
  end.
Fixpoint read_lines (direct : bool) (l : list (list Z)) : outcome (list (list Z * Z * bool)) :=
  match l with
  | [] => Ret []
  | x :: r => obind (manifest_line direct x) (fun e => obind (read_lines direct r) (fun es => Ret (e :: es)))
  end.
(** readManifest, wdtCmdLine.cpp:142-156. *)
Definition read_manifest (direct : bool) (text : list Z) : outcome (list (list Z * Z * bool)) :=
  read_lines direct (lines_of text).

(** main, wdtCmdLine.cpp:171-387: which part of the program runs. [args]: the arguments
    left after the flags, each a string. *)
Record flags := {
  fl_bad : bool; fl_exit_on_bad : bool; fl_print_options : bool; fl_parse_log : bool;
  fl_url : list Z; fl_destination : list Z; fl_fewer_is_error : bool; fl_daemon : bool
}.
Inductive mode := MExit (status : Z) | MParseLog | MSend (url : list Z) | MReceive.
Definition is_nil {A} (l : list A) : bool := match l with [] => true | _ => false end.
Definition the_mode (f : flags) (args : list (list Z)) (stdin_line : list Z) : outcome mode :=
  if fl_bad f && fl_exit_on_bad f then Ret (MExit 1)
  else if negb (fl_bad f) && match args with [] => false | [a] => negb (str_eqb a [45]) | _ => true end then Ret (MExit 1)
  else
    let minus := negb (fl_bad f) && negb (is_nil args) in
    if minus && is_nil stdin_line then Ret (MExit URI_PARSE_ERROR)
    else
      let url := if minus then stdin_line else fl_url f in
      if fl_print_options f then Ret (MExit 0)
      else if fl_parse_log f then Ret MParseLog
      else if is_nil url then Ret (if is_nil (fl_destination f) then MReceive else MSend [])
      else obind (parseRequest url) (fun r => Ret (if r_error r =? OK then MSend url else MExit ERROR)).
(** What the rest of main is told: whether the log was parsed, the codes of Receiver::init,
    transferAsync and finish (or runForever), and Wdt::wdtSend. *)
Record results := { rs_parsed : bool; rs_init : Z; rs_start : Z; rs_finish : Z; rs_forever : Z; rs_send : Z }.
(** The status the process ends with: the low byte of what main returns. *)
Definition exit_status (f : flags) (m : mode) (r : results) : Z :=
  (match m with
   | MExit s => s
   | MParseLog => if rs_parsed r then OK else ERROR
   | MSend _ => rs_send r
   | MReceive =>
       if rs_init r =? FEWER_PORTS then
         if fl_fewer_is_error f then FEWER_PORTS
         else if fl_daemon f then rs_forever r else if rs_start r =? OK then rs_finish r else rs_start r
       else if negb (rs_init r =? OK) then rs_init r
       else if fl_daemon f then rs_forever r else if rs_start r =? OK then rs_finish r else rs_start r
   end) mod 256.

(** The thread that aborts after some seconds, setupAbortChecker, 104-128, and cancelAbort,
    134-141. The thread: not started to wait, waiting, woken or timed out and about to take
    the mutex, ended with or without abort. *)
Inductive timer := TStart | TWait | TWoken | TTimeout | TEnd (abort : bool).
Record alarm := { al_timer : timer; al_cancelled : bool; al_main_done : bool (* cancelAbort has returned *) }.
Definition alarm_new : alarm := {| al_timer := TStart; al_cancelled := false; al_main_done := false |}.
Inductive aev := ALock (* the thread takes the mutex *) | ATime (* the time is over *) | ASpurious | ACancel (* main, all of cancelAbort *).
Definition astep (s : alarm) (e : aev) : option alarm :=
  let '{| al_timer := t; al_cancelled := c; al_main_done := d |} := s in
  match e with
  | ALock =>
      match t with
      | TStart | TWoken => Some {| al_timer := if c then TEnd false else TWait; al_cancelled := c; al_main_done := d |}
      | TTimeout => Some {| al_timer := TEnd (negb c); al_cancelled := c; al_main_done := d |}
      | _ => None
      end
  | ATime => match t with TWait => Some {| al_timer := TTimeout; al_cancelled := c; al_main_done := d |} | _ => None end
  | ASpurious => match t with TWait => Some {| al_timer := TWoken; al_cancelled := c; al_main_done := d |} | _ => None end
  | ACancel => if d then None
               else Some {| al_timer := match t with TWait => TWoken | x => x end; al_cancelled := true; al_main_done := true |}
  end.
Fixpoint arun (s : alarm) (l : list aev) : option alarm :=
  match l with [] => Some s | e :: r => match astep s e with Some s' => arun s' r | None => None end end.
