(** From flags to options: WdtFlags.cpp:28-71 with WdtFlagsMacros.h:15-80 and
    WdtFlags.cpp.inc. gflags is a list of flags. *)
From Coq Require Export ZArith List Bool String.
From Verif Require Export Model.CmdLine.
Import ListNotations.
Open Scope list_scope.
Open Scope Z_scope.

(** CommandLineFlagInfo as used in getUserSpecifiedOptions, WdtFlags.cpp:40-55: name,
    is_default, and the value FLAGS_name has, as number (bool: 0 or 1) or text. *)
Record flag := { fl_name : list Z; fl_is_default : bool; fl_number : Z; fl_text : list Z }.

(** The names of the options, WdtFlags.cpp.inc, as fields of WdtOptions. *)
Definition option_name (n : oname) : list Z :=
  bytes_of match n with
  | NumPorts => "num_ports" | BlockSize => "block_size_mbytes" | DisablePrealloc => "disable_preallocation"
  | DirTree => "resume_using_dir_tree" | StaticPorts => "static_ports" | StartPort => "start_port"
  | Resumption => "enable_download_resumption" | SkipWrites => "skip_writes"
  end.
(** FLAGS_PREFIX, WdtFlags.cpp:26. *)
Definition flags_prefix : list Z := bytes_of "wdt_".
(** WDT_FLAG_SYM, WdtFlagsMacros.h:34-43; [standalone]: STANDALONE_APP is defined. *)
Definition flag_name (standalone : bool) (n : list Z) : list Z := if standalone then n else flags_prefix ++ n.
(** getOptionNameFromFlagName, WdtFlags.cpp:28-37. *)
Definition option_of_flag (standalone : bool) (name : list Z) : list Z :=
  if standalone then name
  else if str_eqb (firstn (length flags_prefix) name) flags_prefix then skipn (length flags_prefix) name
  else name.
(** getUserSpecifiedOptions, WdtFlags.cpp:41-56, and find in the set it returns. *)
Definition user_specified (standalone : bool) (fs : list flag) : list (list Z) :=
  map (fun f => option_of_flag standalone (fl_name f)) (filter (fun f => negb (fl_is_default f)) fs).
Definition specified (standalone : bool) (fs : list flag) (n : oname) : bool :=
  existsb (str_eqb (option_name n)) (user_specified standalone fs).
(** WDT_FLAG_VAR: the flag with that name; all are defined in WdtFlags.cpp:15. *)
Definition flag_of (standalone : bool) (fs : list flag) (n : list Z) : option flag :=
  find (fun f => str_eqb (flag_name standalone n) (fl_name f)) fs.
Definition number_of (standalone : bool) (fs : list flag) (n : oname) (old : Z) : Z :=
  match flag_of standalone fs (option_name n) with Some f => fl_number f | None => old end.
(** The comparisons in modifyOptions, WdtOptions.cpp:37 and 46. *)
Definition type_of (t : list Z) : otype :=
  if str_eqb t (bytes_of "disk") then Disk else if str_eqb t (bytes_of "flash") then Flash else OtherType.
(** The assignments of initializeFromFlags, WdtFlags.cpp:58-63. *)
Definition assign_flags (standalone : bool) (fs : list flag) (o : options) : options :=
  let num := number_of standalone fs in
  let boo n b := negb (num n (Z.b2z b) =? 0) in
  {| o_num_ports := num NumPorts (o_num_ports o); o_block_size := num BlockSize (o_block_size o);
     o_disable_preallocation := boo DisablePrealloc (o_disable_preallocation o);
     o_resume_using_dir_tree := boo DirTree (o_resume_using_dir_tree o);
     o_static_ports := boo StaticPorts (o_static_ports o); o_start_port := num StartPort (o_start_port o);
     o_enable_download_resumption := boo Resumption (o_enable_download_resumption o);
     o_skip_writes := boo SkipWrites (o_skip_writes o) |}.
(** initializeFromFlags, WdtFlags.cpp:58-66. *)
Definition initialize_from_flags (standalone : bool) (fs : list flag) (o : options) : options :=
  let ty := match flag_of standalone fs (bytes_of "option_type") with Some f => type_of (fl_text f) | None => Flash end in
  modify_options ty (specified standalone fs) (assign_flags standalone fs o).

(** SignalSubscriber, CommonImpl.h:117-150: a global count of 64 bits and the count each
    subscriber saw last. [Subscribe]: the constructor. *)
Record signals := { sg_epoch : Z; sg_seen : list Z }.
Inductive sev := Notify | Subscribe | Poll (i : nat).
(** The state after, and what notified() returned. *)
Definition sstep (s : signals) (e : sev) : signals * option bool :=
  match e with
  | Notify => ({| sg_epoch := (sg_epoch s + 1) mod 2 ^ 64; sg_seen := sg_seen s |}, None)
  | Subscribe => ({| sg_epoch := sg_epoch s; sg_seen := sg_seen s ++ [sg_epoch s] |}, None)
  | Poll i =>
      match nth_error (sg_seen s) i with
      | None => (s, None)
      | Some x =>
          if x =? sg_epoch s then (s, Some false)
          else ({| sg_epoch := sg_epoch s; sg_seen := firstn i (sg_seen s) ++ sg_epoch s :: skipn (S i) (sg_seen s) |}, Some true)
      end
  end.
(** Any number of events, in the order of the atomic accesses. *)
Fixpoint srun (s : signals) (l : list sev) : signals * list (option bool) :=
  match l with
  | [] => (s, [])
  | e :: r => let '(s1, b) := sstep s e in let '(s2, bs) := srun s1 r in (s2, b :: bs)
  end.
Definition signals_start : signals := {| sg_epoch := 0; sg_seen := [] |}.
