(** C37-C39: barrier, funnel and once-only actions, for every number of threads
    and every interleaving. *)
From Verif Require Import Model.ThreadsCtl Spec.ThreadsCtlSpec Proofs.ThreadsCtlFacts.

(** ---- C37 ---- *)
Theorem C37_not_early n b i j : breach n b -> released b i -> ~ still_expected b j.
Proof. exact (barrier_not_early n b i j). Qed.
Print Assumptions C37_not_early.

Theorem C37_released n b i : breach n b -> (forall j, ~ still_expected b j) -> waiting b i ->
  nth_error (b_st b) i = Some BWoken /\
  bstep b (Some (b_set b i BPassed)) /\
  forall b', bstep b (Some b') -> (forall j, ~ still_expected b' j) /\
    (released b' i \/ nth_error (b_st b') i = Some BWoken).
Proof. exact (barrier_releases n b i). Qed.
Print Assumptions C37_released.

Theorem C37_no_failed_check n b : breach n b -> ~ bstep b None.
Proof. exact (barrier_safe n b). Qed.
Print Assumptions C37_no_failed_check.

(** Three threads: 0 waits, 1 leaves, 2 arrives last and releases 0. *)
Example C37_run : exists b, breach 3 b /\ b_st b = [BWoken; BGone; BPassed].
Proof.
  eexists; split.
  - eapply BRS. eapply BRS. eapply BRS. apply BR0.
    + eapply BS_execute with (i := 0%nat); reflexivity.
    + eapply BS_leave with (i := 1%nat); [reflexivity|left; reflexivity|reflexivity].
    + eapply BS_execute with (i := 2%nat); reflexivity.
  - reflexivity.
Qed.

(** A thread whose start() returns before deregistering holds the others for
    ever: they sleep, and no execution in which it stays away releases them. *)
Theorem C37_thread_without_buffer_refuted :
  (exists b, breach_without 2 0 b /\ nth_error (b_st b) 1 = Some BAsleep /\
     still_expected b 0) /\
  forall b i, breach_without 2 0 b -> ~ released b i.
Proof.
  split.
  - eexists; split; [eapply BWS; [apply BW0|eapply BS_execute with (i := 1%nat); reflexivity|reflexivity]|].
    split; reflexivity.
  - intros b i R. exact (barrier_held 2 0 b i R (Nat.lt_0_succ 1)).
Qed.
Print Assumptions C37_thread_without_buffer_refuted.

(** ---- C38 ---- *)
Theorem C38_one_at_a_time n f : freach n f -> at_most_one FWorking (f_st f).
Proof. exact (funnel_exclusive n f). Qed.
Print Assumptions C38_one_at_a_time.

Theorem C38_not_after_success n f f' : freach n f -> f_successes f <> 0%nat -> fsteps f f' ->
  f_runs f' = f_runs f /\ f_successes f' = 1%nat /\ nobody FWorking (f_st f').
Proof. exact (funnel_once n f f'). Qed.
Print Assumptions C38_not_after_success.

Theorem C38_taken_over n f i : freach n f ->
  nth_error (f_st f) i = Some FGaveUp \/ nth_error (f_st f) i = Some FLoop ->
  nobody FWorking (f_st f) -> f_successes f = 0%nat ->
  exists f', fsteps f f' /\ nth_error (f_st f') i = Some FWorking.
Proof. exact (after_fail n f i). Qed.
Print Assumptions C38_taken_over.

(** Every waiter is answered: while a thread is undecided somebody inside can
    move, and only finitely many such moves are possible. *)
Theorem C38_waiters_answered n f : freach n f ->
  (forall i t, nth_error (f_st f) i = Some t -> undecided t -> exists f', fint f f') /\
  (exists bound, forall k f', frun k f f' -> (k <= bound)%nat).
Proof. exact (fun R => conj (fun i t => funnel_not_stuck n f i t R) (funnel_runs_end n f R)). Qed.
Print Assumptions C38_waiters_answered.

(** Thread 0 works, 1 and 2 sleep, 0 fails and wakes 1, which takes over. *)
Example C38_run : exists f, freach 3 f /\ f_st f = [FGaveUp; FWorking; FAsleep] /\
  f_runs f = 2%nat /\ f_status f = FProgress.
Proof.
  eexists; split.
  - eapply FRS. eapply FRS. eapply FRS. eapply FRS. eapply FRS. eapply FRS. eapply FRS.
    eapply FRS. eapply FRS. eapply FRS. eapply FRS.
    + apply FR0.
    + right; apply FE_enter with (i := 0%nat); reflexivity.
    + right; apply FE_enter with (i := 1%nat); reflexivity.
    + right; apply FE_enter with (i := 2%nat); reflexivity.
    + left; apply FI_get with (i := 0%nat); reflexivity.
    + left; apply FI_get with (i := 1%nat); reflexivity.
    + left; apply FI_wait with (i := 1%nat); reflexivity.
    + left; apply FI_get with (i := 2%nat); reflexivity.
    + left; apply FI_wait with (i := 2%nat); reflexivity.
    + left; eapply FI_fail with (i := 0%nat); [reflexivity|apply FN_wake with (i := 1%nat); reflexivity].
    + left; apply FI_woken with (i := 1%nat); reflexivity.
    + left; apply FI_get with (i := 1%nat); reflexivity.
  - repeat split.
Qed.

(** ---- C39 ---- *)
Theorem C39_start_action n e : oreach n true e -> (e_ran e <= 1)%nat /\
  (forall i, nth_error (e_st e) i = Some EReturned -> e_ran e = 1%nat).
Proof. exact (fun R => conj (ran_bound n true e R) (fun i => start_action n e i R)). Qed.
Print Assumptions C39_start_action.

Theorem C39_end_action n e : oreach n false e -> (e_ran e <= 1)%nat /\
  (forall i t, nth_error (e_st e) i = Some EOut ->
     e_ran e = 0%nat /\ (In t (e_st e) -> t <> EActing)).
Proof. exact (fun R => conj (ran_bound n false e R) (fun i t => end_action n e i t R)). Qed.
Print Assumptions C39_end_action.

Theorem C39_exactly_once n first e : oreach n first e -> n <> 0%nat ->
  (forall i t, nth_error (e_st e) i = Some t -> t = EReturned) -> e_ran e = 1%nat.
Proof. exact (all_returned n first e). Qed.
Print Assumptions C39_exactly_once.

Theorem C39_always_proceeds n first e : oreach n first e -> ~ ostep e None /\
  (forall i t, nth_error (e_st e) i = Some t -> t <> EReturned -> exists e', ostep e (Some e')).
Proof. exact (fun R => conj (once_no_crash n first e R) (fun i t => once_progress n first e i t R)). Qed.
Print Assumptions C39_always_proceeds.

(** A new session of a long-running receiver starts over, also when not every
    thread called in the previous one. *)
Theorem C39_next_session n first e : oreach n first e -> once_reset e = once_init n first.
Proof. exact (reset_fresh n first e). Qed.
Print Assumptions C39_next_session.

Example C39_run : exists e, oreach 2 false e /\ e_st e = [EReturned; EReturned] /\ e_ran e = 1%nat.
Proof.
  eexists; split.
  - eapply ORS. eapply ORS. eapply ORS. apply OR0.
    + apply OS_call with (i := 1%nat); [reflexivity| |discriminate].
      cbn; intros [H|[H|[]]]; discriminate.
    + apply OS_call with (i := 0%nat); [reflexivity| |discriminate].
      cbn; intros [H|[H|[]]]; discriminate.
    + apply OS_done with (i := 0%nat); reflexivity.
  - repeat split.
Qed.

(** A thread that returns early leaves the end action undone for ever. *)
Theorem C39_thread_without_buffer_refuted n dead e :
  oreach_without n dead false e -> (dead < n)%nat -> e_ran e = 0%nat.
Proof. exact (end_never n dead e). Qed.
Print Assumptions C39_thread_without_buffer_refuted.
(** Such an execution in which the other thread has finished. *)
Example C39_without_run : exists e, oreach_without 2 0 false e /\ e_st e = [EOut; EReturned].
Proof.
  eexists; split.
  - eapply OWS; [apply OW0| |].
    + apply OS_call with (i := 1%nat); [reflexivity| |discriminate].
      cbn; intros [H|[H|[]]]; discriminate.
    + reflexivity.
  - reflexivity.
Qed.
