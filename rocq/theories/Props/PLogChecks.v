(** C74: the transfer log when writes to it fail, and the checks that end the receiver. *)
From Verif Require Import Model.LogChecks Spec.LogChecksSpec Proofs.LogRunFacts Proofs.LogChecksFacts.
Open Scope Z_scope.

(** A session with the log open is stopped by a check exactly if the directory was to be
    invalidated and the write failed, or if a transfer succeeds while the directory is
    inconsistent and no header was written; in all other cases it goes to its end. *)
Theorem C74_stops_exactly : forall c w ts m, fit ts (sc_peer c) m -> tm_open m = true ->
  exists x, checks_session c w ts m = Ret x /\ ((exists d, x = Stops d) <-> stop_case c w m).
Proof. exact stops_exactly. Qed.
Print Assumptions C74_stops_exactly.

(** Stopped or not, what is left in the file is as good as the entries there before and
    headers and invalidations that were written whole. *)
Theorem C74_left : forall now o ip c w ts m es d, fit ts (sc_peer c) m -> tm_open m = true -> holds (tm_file m) es -> Forall entry_ok es ->
  checks_session c w ts m = Ret (Stops d) \/ checks_session c w ts m = Ret (Goes d) -> po_parseOnly o = false ->
  exists extra, Forall alone extra /\
    same_recovery (parseLog now o (file_of d) ip) (parseLog now o (file_of (log_bytes (es ++ extra))) ip).
Proof. exact left_all_right. Qed.
Print Assumptions C74_left.

(** After a header that could not be written nothing is logged any more, also no
    invalidations of files, and the status stays. *)
Theorem C74_unlogged : forall k ts m a, in_nat63 ts -> in_nat63 (tm_config m) -> zlen (tm_rid m) + zlen (tm_ip m) <= 4103 -> tm_open m = true ->
  exists m', writeLogHeaderW (Some k) ts m = Ret m' /\ do_add a m' = Ret m' /\ tm_status m' = tm_status m.
Proof. exact closed_ignores. Qed.
Print Assumptions C74_unlogged.

(** No write fails: a sender that does not resume and has no files ends a receiver that found
    another session's log. *)
Theorem C74_empty_refuted : exists m d, ex_recover [ex_other] = Ret (INCONSISTENT_DIRECTORY, [], m) /\
  checks_session (log_case None) no_fail 7 m = Ret (Stops d).
Proof. exact empty_stops. Qed.
Print Assumptions C74_empty_refuted.
(** The transfer succeeds, only the header could not be written. *)
Theorem C74_header_refuted : exists m d, ex_recover [] = Ret (OK, [], m) /\
  checks_session (log_case (Some (true, false))) {| wr_ip := None; wr_inval := None; wr_header := Some 0%nat; wr_last := None |} 7 m = Ret (Stops d).
Proof. exact header_stops. Qed.
Print Assumptions C74_header_refuted.

(** An invalidation of which two bytes were written. *)
Example C74_inval_case : exists m d, ex_recover [] = Ret (OK, [], m) /\
  checks_session (log_case (Some (true, false))) {| wr_ip := None; wr_inval := Some 2%nat; wr_header := None; wr_last := None |} 7 m = Ret (Stops d) /\
  length d = 2%nat.
Proof. exact inval_stops. Qed.
(** A session without failures goes to its end. *)
Example C74_goes_case : exists m d, ex_recover [] = Ret (OK, [], m) /\ tm_open m = true /\ tm_rid m = [105] /\ tm_config m = 1 /\
  checks_session (log_case (Some (true, false))) no_fail 7 m = Ret (Goes d).
Proof. eexists. eexists. split; [vm_compute; reflexivity|]. vm_compute. repeat split; reflexivity. Qed.
