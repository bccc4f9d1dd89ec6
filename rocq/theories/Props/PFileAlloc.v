(** C22: allocation of a destination file, for every number of threads and
    files and every interleaving. *)
From Verif Require Import Model.FileAlloc Spec.FileAllocSpec Proofs.FileAllocFacts.

Theorem C22_one_allocates n f s : areach n f ->
  (fa_allocs f s <= 1)%nat /\ (forall i j, allocating f i s -> allocating f j s -> i = j).
Proof. exact (allocates_once n f s). Qed.
Print Assumptions C22_one_allocates.

(** A thread is let through to the file only after the allocation has ended,
    not with a failure; and, unless the file had the right size from the start,
    there was an allocation. *)
Theorem C22_opens_after_success n f i s : areach n f -> opens f i s ->
  (forall j, ~ allocating f j s) /\
  (forall j ok, nth_error (fa_st f) j = Some (CSet s ok) -> ok = true) /\
  (fa_presized f s = false -> fa_allocs f s = 1%nat).
Proof. exact (opens_after n f i s). Qed.
Print Assumptions C22_opens_after_success.

Theorem C22_failure_for_all n f f' i j s : areach n f ->
  nth_error (fa_st f) j = Some (CSet s false) -> asteps f f' -> ~ opens f' i s.
Proof. exact (failure_for_all n f f' i j s). Qed.
Print Assumptions C22_failure_for_all.

Theorem C22_sleeper_expected n f i s : areach n f -> sleeps_for f i s ->
  exists j, allocating f j s \/ announcing f j s.
Proof. exact (sleeper_expected n f i s). Qed.
Print Assumptions C22_sleeper_expected.

(** Nobody inside is stuck, and all are answered after finitely many steps. *)
Theorem C22_all_answered n f : areach n f ->
  (forall i t, nth_error (fa_st f) i = Some t -> inside t -> exists f', aint f (Some f')) /\
  (exists bound, forall k f', arun k f f' -> (k <= bound)%nat).
Proof. exact (alloc_all_answered n f). Qed.
Print Assumptions C22_all_answered.

Theorem C22_no_failed_check n f : areach n f -> ~ aint f None.
Proof. exact (no_crash n f). Qed.
Print Assumptions C22_no_failed_check.

(** Thread 0 allocates file 7, thread 1 sleeps, the allocation fails while
    thread 2 holds the mutex and is about to sleep. *)
Example C22_run : exists f, areach 3 f /\
  fa_st f = [CSet 7 false; CAsleep 7 0; CWillSleep 7 0] /\ fa_mutex f = Some 2%nat.
Proof.
  eexists; split.
  - eapply ARI. eapply ARI. eapply ARI. eapply ARI. eapply ARI. eapply ARI.
    eapply ARE. eapply ARE. eapply ARE. apply AR0.
    + apply AE_call with (i := 0%nat) (s := 7) (exact := false); reflexivity.
    + apply AE_call with (i := 1%nat) (s := 7) (exact := false); reflexivity.
    + apply AE_call with (i := 2%nat) (s := 7) (exact := false); reflexivity.
    + eapply AI_take with (i := 1%nat); [left; reflexivity|reflexivity].
    + eapply AI_check with (i := 1%nat); reflexivity.
    + eapply AI_sleep with (i := 1%nat); reflexivity.
    + eapply AI_take with (i := 2%nat); [left; reflexivity|reflexivity].
    + eapply AI_check with (i := 2%nat); reflexivity.
    + eapply AI_finish with (i := 0%nat) (ok := false); [reflexivity|discriminate].
  - split; reflexivity.
Qed.
(** A thread let through after a successful allocation by another. *)
Example C22_opens : exists f, areach 2 f /\ opens f 1 7 /\ fa_allocs f 7 = 1%nat.
Proof.
  eexists; split.
  - eapply ARI. eapply ARI. eapply ARI. eapply ARE. eapply ARE. apply AR0.
    + apply AE_call with (i := 0%nat) (s := 7) (exact := false); reflexivity.
    + apply AE_call with (i := 1%nat) (s := 7) (exact := false); reflexivity.
    + eapply AI_finish with (i := 0%nat) (ok := true); [reflexivity|discriminate].
    + eapply AI_take with (i := 1%nat); [left; reflexivity|reflexivity].
    + eapply AI_check with (i := 1%nat); reflexivity.
  - split; [left|]; reflexivity.
Qed.
