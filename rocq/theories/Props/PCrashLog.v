(** C52: deaths of the receiver between file operations and log appends. *)
From Verif Require Import Proofs.CrashWitness.

(** C52: after any number of sessions, each ended by the death of the receiver
    between any two of its steps, every byte recovery reports is on disk and is
    the sender's. Files are planned from what was reported, their content does
    not change, they shrink only with preallocation, and a byte that is reported
    or already verified is not overwritten with a wrong one. *)
Theorem C52_reported_pieces_are_on_disk : forall c rid config d log now r name x,
  in_nat63 config -> survives c rid config d log -> (forall q, in_nat63 (now q)) ->
  parseLog now (disk_opts c rid config d) (file_of log) [] = Ret r ->
  reported (pr_infos r) name x ->
  exists f, d name = Some f /\ rd f x = Some (c_src c name x).
Proof. exact recovered_pieces. Qed.
Print Assumptions C52_reported_pieces_are_on_disk.

Example C52_reported_pieces_are_on_disk_example : exists c d log r,
  survives c [1] 0 d log /\ parseLog (fun _ => 0) (disk_opts c [1] 0 d) (file_of log) [] = Ret r /\
  reported (pr_infos r) name_a 0 /\ reported (pr_infos r) name_a 3.
Proof. exact two_sessions. Qed.

(** C52 without the restriction on shrinking is false: without preallocation a
    file that has become shorter is emptied at once, but the entry that takes
    back its old pieces is still in memory. *)
Theorem C52_shrunk_file_refuted : exists c d log infos m p s,
  survives c [1] 0 d log /\ starts c [1] [9] 0 d log infos m /\ plan_fits (any_shrink c) p d infos /\
  careful_run c p infos (c_begin 1 d m) s /\
  c_prealloc c = false /\ misreports c [1] 0 (cs_disk s) (log_after_death 0 s) name_a 0.
Proof. exact shrunk_witness. Qed.
Print Assumptions C52_shrunk_file_refuted.

(** C52 without the restriction on changes is false even with preallocation: a
    reported piece may have one byte of the old and one of the new content. *)
Theorem C52_changed_file_refuted : exists c1 c2 d log infos m p s,
  survives c1 [1] 0 d log /\ starts c2 [1] [9] 0 d log infos m /\ plan_fits c2 p d infos /\
  careful_run c2 p infos (c_begin 1 d m) s /\ c_prealloc c2 = true /\
  misreports c1 [1] 0 (cs_disk s) (log_after_death 0 s) name_a 0 /\
  misreports c2 [1] 0 (cs_disk s) (log_after_death 0 s) name_a 1.
Proof. exact changed_witness. Qed.
Print Assumptions C52_changed_file_refuted.

(** C52 without the restriction on overwriting is false: a block that is in the
    log is sent again, arrives damaged and is written before its checksum is
    looked at. *)
Theorem C52_resent_block_refuted : exists c infos m p s,
  starts c [1] [9] 0 empty_disk [] infos m /\ plan_fits c p empty_disk infos /\
  planned_run c p (c_begin 1 empty_disk m) s /\
  c_verify c = true /\ misreports c [1] 0 (cs_disk s) (log_after_death 0 s) name_a 0.
Proof. exact resent_witness. Qed.
Print Assumptions C52_resent_block_refuted.

(** An invalid log is kept so that "the directory remains invalid"
    (TransferLogManager.cpp:597-599). It does not: the next session does not
    write to it, and the log may fit the files again. *)
Theorem C52_invalid_log_refuted : exists c d log infos m p s p' s',
  survives c [1] 0 d log /\ starts c [1] [9] 0 d log infos m /\ plan_fits (any_shrink c) p d infos /\
  careful_run c p infos (c_begin 1 d m) s /\
  (exists r, parseLog (fun _ => 0) (disk_opts c [1] 0 (cs_disk s)) (file_of (log_after_death 0 s)) [] = Ret r /\
             pr_status r = INVALID_LOG) /\
  plan_fits c p' (cs_disk s) [] /\
  careful_run c p' [] (c_begin 1 (cs_disk s) (closed_log [1] [9] 0 (file_of (log_after_death 0 s)))) s' /\
  misreports c [1] 0 (cs_disk s') (log_after_death 0 s') name_a 0.
Proof. exact invalid_witness. Qed.
Print Assumptions C52_invalid_log_refuted.
