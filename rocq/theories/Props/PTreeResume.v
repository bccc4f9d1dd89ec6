(** C58: resumption based on the directory tree. *)
From Verif Require Import Proofs.TreeResumeFacts Proofs.TreeWitness Proofs.CrashWitness Proofs.ExploreWitness.
From Coq Require Import Lia.
Open Scope Z_scope.

(** Every byte the receiver tells the next sender it has is on disk and is the
    sender's, after any number of sessions, each ended by death between any two steps,
    closed after a failure, or by success. The directory is right at first; while the log says the directory
    can be trusted, files are sent from their beginning or from the size reported, not
    in blocks, and what is written is right. *)
Theorem C58_reported_bytes_are_right : forall c d log now ts rid fuel root E infos m,
  tree_survives c d log -> shows root E d -> in_nat63 ts ->
  tree_init now ts (c_prealloc c) rid fuel root E log = Ret (Some (infos, m)) ->
  forall name x, reported infos name x ->
    exists f, d name = Some f /\ rd f x = Some (c_src c name x).
Proof. exact tree_reported. Qed.
Print Assumptions C58_reported_bytes_are_right.
Example C58_reported_bytes_are_right_example : exists d log E infos m, tree_survives c5 d log /\ shows rt E d /\
  tree_init (fun _ => 0) 0 (c_prealloc c5) [1] 9 rt E log = Ret (Some (infos, m)) /\
  reported infos name_a 0 /\ reported infos name_a 2 /\ d name_a = Some [5; 5; 5].
Proof. exact two_tree_sessions. Qed.

(** What is told: every file of the directory but the logs, once, whole, with its size
    and a sequence id of its own. *)
Theorem C58_traversal : forall fuel root E l, names_ok E -> types_agree (tree_xopts root) E ->
  (forall k, xe_abort E k = false) -> traverseDestinationDir fuel root E = Ret (Some l) ->
  NoDup (map fc_fileName l) /\ NoDup (map fc_seqId l) /\
  forall name size,
    (exists i, In i l /\ fc_fileName i = name /\ fc_fileSize i = size /\ 1 <= fc_seqId i /\
       fc_chunks i = [{| iv_start := 0; iv_end := size |}]) <->
    wanted (tree_xopts root) E name size /\ name <> wdt_log /\ name <> wdt_bug.
Proof. exact traversal_exact. Qed.
Print Assumptions C58_traversal.
Example C58_traversal_example :
  exists l, traverseDestinationDir 9 rt tree_env = Ret (Some l) /\
    map fc_fileName l = [[97]; [100; 47; 98]] /\ map fc_fileSize l = [5; 7].
Proof. eexists. split; [vm_compute; reflexivity|]. split; reflexivity. Qed.
Example C58_traversal_skips_log : exists l,
  traverseDestinationDir 9 rt (table_env [(rt, ([ent wdt_log DtReg; ent [97] DtReg; ent wdt_bug DtReg], false))]
    [(rt ++ wdt_log, (FkReg, 50)); (rt ++ [97], (FkReg, 5)); (rt ++ wdt_bug, (FkReg, 60))] [] []) = Ret (Some l) /\
  map fc_fileName l = [[97]].
Proof. eexists. split; [vm_compute; reflexivity|reflexivity]. Qed.

(** What the sender does with it: a file that is as long is not sent, a shorter one is
    continued where it ends, a longer one and one that is missing are sent whole. *)
Theorem C58_plan : forall infos name size, Forall whole_file infos -> NoDup (map fc_fileName infos) ->
  ((forall i, In i infos -> fc_fileName i <> name) ->
     planFor infos name size = Ret (PlanNew NOT_EXISTS 0)) /\
  (forall i, In i infos -> fc_fileName i = name ->
     (size < fc_fileSize i -> planFor infos name size = Ret (PlanNew EXISTS_TOO_LARGE (fc_seqId i))) /\
     (size = fc_fileSize i -> planFor infos name size = Ret (PlanDone size)) /\
     (fc_fileSize i < size -> planFor infos name size =
        Ret (PlanContinue (fc_fileSize i) (fc_seqId i) EXISTS_TOO_SMALL
               [{| iv_start := fc_fileSize i; iv_end := size |}]))).
Proof. exact tree_planned. Qed.
Print Assumptions C58_plan.
Example C58_plan_example : Forall whole_file (infos_a 2) /\
  planFor (infos_a 2) name_a 4 = Ret (PlanContinue 2 1 EXISTS_TOO_SMALL [{| iv_start := 2; iv_end := 4 |}]).
Proof. split; [constructor; [split; [reflexivity|discriminate]|constructor]|vm_compute; reflexivity]. Qed.

(** No log makes the parser name a file, so the check that it named none
    (Receiver.cpp:149) never ends the process. *)
Theorem C58_log_names_no_file : forall now o f ip r, po_dirTree o = true -> po_parseOnly o = false ->
  parseLog now o f ip = Ret r -> pr_infos r = [].
Proof. exact tree_log_no_files. Qed.
Print Assumptions C58_log_names_no_file.
Example C58_log_names_no_file_example : exists r,
  parseLog (fun _ => 0) (tree_popts [1])
    (file_of (log_bytes [LHeader 1 2 [1] [9] 2; LCreate 1 name_a 1 4])) [] = Ret r /\ pr_status r = INVALID_LOG.
Proof. eexists. split; [vm_compute; reflexivity|reflexivity]. Qed.

(** Files are told only if the log (of whole entries) is one of this transfer which
    no later entry has made invalid, or has no session at all. *)
Theorem C58_only_valid : forall now ts prealloc rid fuel root E es infos m, (forall q, in_nat63 (now q)) ->
  Forall entry_ok es -> Forall block_in_range es ->
  tree_init now ts prealloc rid fuel root E (log_bytes es) = Ret (Some (infos, m)) ->
  infos <> [] -> tm_status m = OK /\ exists seg, current_session (tree_popts rid) es seg.
Proof. exact tree_only_valid. Qed.
Print Assumptions C58_only_valid.
Example C58_only_valid_example :
  (exists m, tree_init (fun _ => 0) 0 false [1] 9 rt (env_a 2) log_valid = Ret (Some (infos_a 2, m)) /\ tm_status m = OK) /\
  (exists m, tree_init (fun _ => 0) 0 false [1] 9 rt (env_a 2) log_dead = Ret (Some ([], m)) /\
     tm_status m = INCONSISTENT_DIRECTORY) /\
  exists m, tree_init (fun _ => 0) 0 false [2] 9 rt (env_a 2) log_valid = Ret (Some ([], m)) /\
     tm_status m = INCONSISTENT_DIRECTORY.
Proof.
  split; [eexists; split; [vm_compute; reflexivity|reflexivity]|].
  split; (eexists; split; [vm_compute; reflexivity|reflexivity]).
Qed.

(** A sender with another address is told nothing, and the log says so. *)
Theorem C58_other_sender : forall ts peer infos m es, in_nat63 ts -> tm_open m = true ->
  holds (tm_file m) es -> tm_ip m <> [] -> tm_ip m <> peer ->
  exists m', tree_begin ts false peer infos m = Ret ([], m') /\
    holds (tm_file m') (es ++ [LDirInval ts]) /\ tm_status m' = INCONSISTENT_DIRECTORY /\ tm_ip m' = peer.
Proof. exact tree_other_sender. Qed.
Print Assumptions C58_other_sender.
Example C58_other_sender_example : exists m',
  tree_begin 1 false [8] (infos_a 2) (log_mgr [9] OK) = Ret ([], m') /\
  tree_begin 1 false [9] (infos_a 2) (log_mgr [9] OK) = Ret (infos_a 2, log_mgr [9] OK).
Proof. eexists. split; [vm_compute; reflexivity|vm_compute; reflexivity]. Qed.

(** The log at the beginning of the transfer: invalid if the sender does not resume or
    sends blocks; otherwise a header of this session, unless it was invalid already. *)
Theorem C58_header : forall ts ts' block resuming m m' es, in_nat63 ts -> in_nat63 ts' ->
  tm_open m = true -> tm_entries m = [] -> tm_config m = 2 -> holds (tm_file m) es ->
  zlen (tm_rid m) + zlen (tm_ip m) <= 4103 ->
  addTransferLogHeader ts ts' true block resuming m = Ret m' ->
  (resuming = false \/ block = true ->
     holds (tm_file m') (es ++ [LDirInval ts]) /\ tm_status m' = INCONSISTENT_DIRECTORY) /\
  (resuming = true -> block = false -> tm_status m = INCONSISTENT_DIRECTORY -> m' = m) /\
  (resuming = true -> block = false -> tm_status m <> INCONSISTENT_DIRECTORY ->
     holds (tm_file m') (es ++ [LHeader ts' 2 (tm_rid m) (tm_ip m) 2]) /\ tm_status m' = OK).
Proof. exact tree_header_decision. Qed.
Print Assumptions C58_header.
Example C58_header_example : exists m', addTransferLogHeader 1 2 true true true (log_mgr [9] OK) = Ret m' /\
  tm_status m' = INCONSISTENT_DIRECTORY.
Proof. eexists. split; [vm_compute; reflexivity|reflexivity]. Qed.

(** Without a right directory at first this is false: with no log, files that were
    there before are trusted. *)
Theorem C58_existing_files_refuted : exists c E d,
  shows rt E d /\ tree_misreports c [1] rt E d [] name_a 0.
Proof. exact existing_trusted. Qed.
Print Assumptions C58_existing_files_refuted.

(** It is false if bytes arrive damaged: they are on disk before the checksum is
    looked at, and are trusted although the block was refused. *)
Theorem C58_damaged_block_refuted : exists c s s' E, c_verify c = true /\ tree_session c empty_disk [] s /\
  tses_steps c false true s damage = Some s' /\ cs_marked (te_c s') = [] /\
  tree_misreports c [1] rt E (cs_disk (te_c s')) (lf_data (tm_file (cs_log (te_c s')))) name_a 1.
Proof. exact damage_trusted. Qed.
Print Assumptions C58_damaged_block_refuted.

(** It is false if the sender sends blocks without resuming: a thread writes to a file
    while another one has not yet written that the directory is invalid. *)
Theorem C58_start_race_refuted : exists c E0 m m' p l s E,
  tree_survives c empty_disk [] /\ shows rt E0 empty_disk /\
  tree_init (fun _ => 0) 0 (c_prealloc c) [1] 9 rt E0 [] = Ret (Some ([], m)) /\
  tree_begin 0 false [9] [] m = Ret ([], m') /\ tree_plan p [] /\
  tses_steps c true false (tses_begin 2 empty_disk m') l = Some s /\
  steps_right c true false p (tses_begin 2 empty_disk m') l /\
  tree_misreports c [1] rt E (cs_disk (te_c s)) (lf_data (tm_file (cs_log (te_c s)))) name_a 0.
Proof. exact race_trusted. Qed.
Print Assumptions C58_start_race_refuted.

(** It is false if a transfer succeeds that has not sent every file of the directory:
    the directory becomes valid with what was wrong in it. *)
Theorem C58_stale_file_refuted : exists c d log s E log',
  (forall name x, ~ tree_misreports c [1] rt E d log name x) /\
  tree_session c d log s /\ cs_disk (te_c s) = d /\
  tree_close 1 true true (cs_log (te_c s)) = Ret log' /\
  tree_misreports c [1] rt E d log' name_a 0.
Proof. exact stale_trusted. Qed.
Print Assumptions C58_stale_file_refuted.

(** If the exchange of the list fails, another thread can begin it again, as if
    nothing had happened. *)
Theorem C58_retry : forall c block s, te_phase s = TpChunks ->
  tses_steps c block true s [TvChunksFail; TvChunks] = Some s.
Proof. exact tree_retry. Qed.
Print Assumptions C58_retry.
Example C58_retry_example : exists s,
  tses_steps c5 false true (tses_begin 2 empty_disk (log_mgr [9] OK)) [TvChunks] = Some s /\ te_phase s = TpChunks.
Proof. eexists. split; [vm_compute; reflexivity|reflexivity]. Qed.
