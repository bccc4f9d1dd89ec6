(** Resumption based on the directory tree (resume_using_dir_tree): what the receiver
    finds in its directory is what it tells the sender, if the transfer log says that
    the directory can be trusted. Receiver.cpp (traverseDestinationDir, init,
    startNewGlobalSession, addTransferLogHeader, fixAndCloseTransferLog),
    ReceiverThread.cpp (processFileCmd, sendFileChunks) and the disk, the threads and
    the log manager of Model/CrashLog.v.

    Simplified: the file system is what its calls answer (Model/Explore.v) and does not
    change while it is traversed; a write of one log entry succeeds; a step of a thread
    on a file is possible in every phase of the funnel (the code allows fewer). *)
From Verif Require Export Model.CrashLog Model.Explore.
Open Scope Z_scope.

(** kWdtLogName and kWdtBuggyLogName, util/TransferLogManager.h:43-44. *)
Definition wdt_log : list Z := [46; 119; 100; 116; 46; 108; 111; 103].
Definition wdt_bug : list Z := wdt_log ++ [46; 98; 117; 103].

(** The queue traverseDestinationDir makes (Receiver.cpp:52-54): defaults of
    util/DirectorySourceQueue.h (316, 410, 446), no patterns. *)
Definition tree_xopts (root : list Z) : xopts :=
  {| xo_root := root; xo_follow := false; xo_include := None; xo_exclude := None;
     xo_prune := None |}.
(** The sequence id in the metadata of a file (a source carries a copy of it). *)
Definition seq_of (name : list Z) (l : list source) : Z :=
  match find (fun s => str_eqb (s_name s) name) l with
  | Some s => s_seqId s
  | None => 0
  end.
(** The loop over the discovered files, Receiver.cpp:56-68. *)
Fixpoint tree_infos (q : list source) (files : list (list Z * Z)) : outcome (list file_chunks) :=
  match files with
  | [] => Ret []
  | (name, size) :: r =>
      if str_eqb name wdt_log || str_eqb name wdt_bug then tree_infos q r
      else obind (mkInterval 0 size) (fun c =>
           obind (tree_infos q r) (fun l =>
           Ret ({| fc_seqId := seq_of name q; fc_fileName := name; fc_fileSize := size;
                   fc_chunks := [c] |} :: l)))
  end.
(** traverseDestinationDir, Receiver.cpp:50-69; whether the traversal met an error is
    not looked at. [Ret None]: does not terminate. *)
Definition traverseDestinationDir (fuel : nat) (root : list Z) (E : xenv)
  : outcome (option (list file_chunks)) :=
  obind (buildQueue fuel (tree_xopts root) E (dq_init 0 false)) (fun r =>
  match r with
  | None => Ret None
  | Some (q, _) => obind (tree_infos (q_queue q) (q_files q)) (fun l => Ret (Some l))
  end).

(** The options the log is parsed with; the configuration is that of
    getTransferConfig, Receiver.cpp:276-285. The directory is not looked at. *)
Definition tree_popts (rid : list Z) : popts :=
  {| po_prealloc := false; po_dirTree := true; po_parseOnly := false; po_rid := rid;
     po_config := 2; po_disk := fun _ => None |}.
(** Receiver::init with a log of these bytes (empty: no log was there, or an empty
    one), Receiver.cpp:139-158. *)
Definition tree_init (now : Z -> Z) (ts : Z) (prealloc : bool) (rid : list Z) (fuel : nat)
    (root : list Z) (E : xenv) (log : list Z) : outcome (option (list file_chunks * tlm)) :=
  if prealloc then Crash
  else
    obind (parseVerifyAndFix now ts (tree_popts rid)
             {| tm_open := true; tm_file := {| lf_data := log; lf_pos := 0 |}; tm_rid := rid;
                tm_ip := []; tm_config := 2; tm_entries := []; tm_status := OK;
                tm_headerWritten := false |}) (fun r =>
    let '(code, infos, m) := r in
    if code =? OK then
      match infos with
      | _ :: _ => Crash
      | [] =>
          obind (traverseDestinationDir fuel root E) (fun o =>
          match o with None => Ret None | Some l => Ret (Some (l, m)) end)
      end
    else Ret (Some (infos, m))).

(** startNewGlobalSession, Receiver.cpp:80-87 ([disabled]: see verifySenderIp). *)
Definition tree_begin (ts : Z) (disabled : bool) (peer : list Z) (infos : list file_chunks) (m : tlm)
  : outcome (list file_chunks * tlm) :=
  obind (verifySenderIp ts disabled peer m) (fun r =>
  Ret (if fst r then infos else [], snd r)).

(** addTransferLogHeader, Receiver.cpp:489-512. *)
Definition addTransferLogHeader (ts ts' : Z) (dirTree block resuming : bool) (m : tlm) : outcome tlm :=
  obind (if negb resuming || (dirTree && block) then invalidateDirectory ts m else Ret m) (fun m1 =>
  if negb dirTree || negb (tm_status m1 =? INCONSISTENT_DIRECTORY)
  then writeLogHeader ts' m1 else Ret m1).

(** fixAndCloseTransferLog with resume_using_dir_tree, Receiver.cpp:514-556: the bytes
    of the log that is left ([]: none). *)
Definition tree_close (ts : Z) (success keep : bool) (m : tlm) : outcome (list Z) :=
  obind (if success && (tm_status m =? INCONSISTENT_DIRECTORY) then writeLogHeader ts m else Ret m)
  (fun m1 =>
  if negb success then Ret (lf_data (tm_file m1))
  else if (tm_status m =? INVALID_LOG) || negb keep then Ret []
  else Ret (lf_data (tm_file m1))).

(** One step of a thread or of the log's writer: as [cstep], but nothing is given to the
    log (FileCreator.cpp:71, ReceiverThread.cpp:672-674). *)
Definition tree_step (c : ccfg) (l : clabel) (s : cstate) : option cstate :=
  let thr i (k : cthr -> option cstate) :=
    match nth_error (cs_thr s) i with Some t => k t | None => None end in
  match l with
  | CInval i _ => thr i (fun t =>
      match ct_op t with OInval b => Some (set_thr s i (with_op t (OCreate b))) | _ => None end)
  | CCreate i _ => thr i (fun t =>
      match ct_op t with
      | OCreate b => Some (set_thr (set_map s (bd_seqId b) AAllocated) i (with_op t (OWrite b 0 true)))
      | _ => None end)
  | CMark i _ => thr i (fun t =>
      match ct_wait t with
      | (b, ok) :: r =>
          if negb (c_verify c) || ok
          then Some (set_thr (add_marked s b) i {| ct_op := ct_op t; ct_wait := r |})
          else None
      | [] => None end)
  | _ => cstep c l s
  end.

(** SEND_FILE_CHUNKS_FUNNEL: nobody elected; elected by a file command
    (ReceiverThread.cpp:395-404); elected by a request for the chunks (755-826); the
    header has been dealt with. *)
Inductive tphase := TpStart | TpFile | TpChunks | TpEnd.
Record tses := { te_c : cstate; te_phase : tphase }.
Inductive tev :=
| TvFile                 (* a thread's first file command finds the funnel open *)
| TvChunks               (* a request for the chunks does *)
| TvChunksFail           (* notifyFail, the chunks were not acknowledged *)
| TvHeader (ts ts' : Z)  (* addTransferLogHeader, then notifySuccess *)
| TvStep (l : clabel).
(** [block]: the sender works in block mode; [resuming]: it asks for the chunks.
    [None]: not possible now. *)
Definition tses_step (c : ccfg) (block resuming : bool) (s : tses) (e : tev) : option tses :=
  let ph p := Some {| te_c := te_c s; te_phase := p |} in
  let header ts ts' :=
    match addTransferLogHeader ts ts' true block resuming (cs_log (te_c s)) with
    | Ret m => Some {| te_c := set_log (te_c s) m; te_phase := TpEnd |}
    | _ => None
    end in
  match e, te_phase s with
  | TvFile, TpStart => if resuming then None else ph TpFile
  | TvChunks, TpStart => if resuming then ph TpChunks else None
  | TvChunksFail, TpChunks => ph TpStart
  | TvHeader ts ts', TpFile => header ts ts'
  | TvHeader ts ts', TpChunks => header ts ts'
  | TvStep l, p =>
      match tree_step c l (te_c s) with
      | Some s' => Some {| te_c := s'; te_phase := p |}
      | None => None
      end
  | _, _ => None
  end.
Fixpoint tses_steps (c : ccfg) (block resuming : bool) (s : tses) (l : list tev) : option tses :=
  match l with
  | [] => Some s
  | e :: r =>
      match tses_step c block resuming s e with
      | Some s' => tses_steps c block resuming s' r
      | None => None
      end
  end.
Definition tses_begin (n : nat) (d : list Z -> option (list Z)) (m : tlm) : tses :=
  {| te_c := c_begin n d m; te_phase := TpStart |}.
