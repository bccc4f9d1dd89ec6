(** C57: what is logged during a session reaches the disk. *)
From Verif Require Import Spec.LogSessionSpec Proofs.LogRunFacts.
Import ListNotations.
Open Scope Z_scope.

(** At any moment of a session in which no write fails, the entries about files on disk
    are the first of those taken, in order; once the log is closed, all of them,
    provided recovery had found the log usable. *)
Theorem C57_on_disk : forall ts disabled peer m es evs s,
  session_ok ts peer m es evs -> no_failure evs ->
  session ts disabled peer m evs = Some (Ret s) ->
  exists disk, holds (tm_file (ls_m s)) (es ++ disk) /\
    (exists n, filter about_file disk = firstn n (taken false evs)) /\
    (tm_status m = OK -> tm_open (ls_m s) = false -> filter about_file disk = taken false evs).
Proof. exact on_disk. Qed.
Print Assumptions C57_on_disk.

(** At any moment of a session that starts anew and adds nothing before its header,
    failed writes included, the next recovery reports nothing or exactly what the first
    n entries of this session say; all its entries when the log was closed and no write
    failed. *)
Theorem C57_recovered : forall now o ip ts disabled peer m es evs s,
  session_ok ts peer m es evs -> ranges_ok es evs -> header_first evs -> begins_anew evs ->
  session ts disabled peer m evs = Some (Ret s) ->
  po_parseOnly o = false -> (forall q, in_nat63 (now q)) ->
  exists r, parseLog now o (file_of (lf_data (tm_file (ls_m s)))) ip = Ret r /\
    (pr_status r <> OK -> pr_infos r = []) /\
    (pr_status r = OK -> exists t n,
       faithful o (header_of t peer m :: firstn n (asked evs)) (pr_infos r) /\
       (no_failure evs -> tm_status m = OK -> tm_open (ls_m s) = false -> n = length (asked evs))).
Proof. exact session_recovery. Qed.
Print Assumptions C57_recovered.

(** No session stops the receiver or is undefined. *)
Theorem C57_no_crash : forall ts disabled peer m es evs,
  session_ok ts peer m es evs ->
  match session ts disabled peer m evs with None => True | Some (Ret _) => True | Some _ => False end.
Proof. exact session_runs. Qed.
Print Assumptions C57_no_crash.

Example C57_on_disk_ex : exists m s, ex_recover [] = Ret (OK, [], m) /\
  session_ok 7 ex_peer m [] ex_evs /\ no_failure ex_evs /\ header_first ex_evs /\ begins_anew ex_evs /\
  session 7 false ex_peer m ex_evs = Some (Ret s) /\ tm_open (ls_m s) = false /\
  exists r, parseLog (fun _ => 9) ex_opts (file_of (lf_data (tm_file (ls_m s)))) [] = Ret r /\
    pr_status r = OK /\ map fc_chunks (pr_infos r) = [[{| iv_start := 0; iv_end := 10 |}]].
Proof. exact ex_session. Qed.
(** The write stops in the middle of the second entry. *)
Example C57_recovered_ex : exists m s, ex_recover [] = Ret (OK, [], m) /\
  session_ok 7 ex_peer m [] ex_fail /\ header_first ex_fail /\ begins_anew ex_fail /\
  session 7 false ex_peer m ex_fail = Some (Ret s) /\ tm_open (ls_m s) = false /\
  exists r, parseLog (fun _ => 9) ex_opts (file_of (lf_data (tm_file (ls_m s)))) [] = Ret r /\
    pr_status r = OK /\ map fc_chunks (pr_infos r) = [[]].
Proof. exact ex_failed. Qed.

(** When recovery finds the log of another session, the writer thread is not started
    but entries are taken: nothing of the new session reaches the disk. *)
Theorem C57_not_started_refuted : exists m s, ex_recover [ex_other] = Ret (INCONSISTENT_DIRECTORY, [], m) /\
  session_ok 7 ex_peer m [ex_other; LDirInval 8] ex_idle /\ no_failure ex_idle /\ header_first ex_idle /\ begins_anew ex_idle /\
  session 7 false ex_peer m ex_idle = Some (Ret s) /\ tm_open (ls_m s) = false /\
  exists r, parseLog (fun _ => 9) ex_opts (file_of (lf_data (tm_file (ls_m s)))) [] = Ret r /\
    pr_status r = OK /\ pr_infos r = [] /\ asked ex_idle <> [].
Proof. exact ex_not_started. Qed.
Print Assumptions C57_not_started_refuted.

(** A thread whose first file arrives while another is about to write the header does
    not wait: its creation entry is dropped, its blocks are logged, and the log is
    invalid for the next recovery. *)
Theorem C57_early_creation_refuted : exists m s, ex_recover [] = Ret (OK, [], m) /\
  session_ok 7 ex_peer m [] ex_early /\ no_failure ex_early /\ begins_anew ex_early /\
  session 7 false ex_peer m ex_early = Some (Ret s) /\ tm_open (ls_m s) = false /\
  exists r, parseLog (fun _ => 9) ex_opts (file_of (lf_data (tm_file (ls_m s)))) [] = Ret r /\
    pr_status r = INVALID_LOG /\ pr_infos r = [].
Proof. exact ex_too_early. Qed.
Print Assumptions C57_early_creation_refuted.
