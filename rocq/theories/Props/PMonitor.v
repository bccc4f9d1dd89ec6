(** C13: waiting for work. *)
From Verif Require Import Model.QueueMonitor Spec.MonitorSpec Proofs.QueueMonitorFacts Proofs.MonitorCount.

(** While somebody sleeps, each queued block has a thread already woken for it
    or a wake-up still to be sent. *)
Theorem C13_no_unclaimed_block : forall c n m, mreach c n m ->
  (exists t, In t (m_threads m) /\ asleep t = true) ->
  (m_q m <= how_many woken (m_threads m) + total_to_notify (m_threads m))%nat.
Proof. exact no_sleep_with_unclaimed_block. Qed.
Print Assumptions C13_no_unclaimed_block.

(** Nobody sleeps once discovery has finished and the queue is empty. *)
Theorem C13_no_sleep_at_end : forall c n m, mreach c n m -> m_init m = true -> m_q m = 0%nat ->
  forall t, In t (m_threads m) -> asleep t = false.
Proof. exact no_sleep_at_end. Qed.
Print Assumptions C13_no_sleep_at_end.

(** 'No more' is answered only to a caller, only when discovery has finished and
    the queue is empty, and with the failure status of that moment. *)
Theorem C13_no_more_only_at_end : forall m m' j b, mstep m m' ->
  nth_error (m_threads m') j = Some (TNone b) ->
  nth_error (m_threads m) j <> Some (TNone b) ->
  m_init m = true /\ m_q m = 0%nat /\ b = m_failed m /\
  (nth_error (m_threads m) j = Some TEnter \/ nth_error (m_threads m) j = Some TWoken).
Proof. exact no_more_only_at_end. Qed.
Print Assumptions C13_no_more_only_at_end.

(** When no thread can move, a thread still asking is waiting for discovery and
    there is no block for it. *)
Theorem C13_stuck_only_for_lack_of_blocks : forall c n m, mreach c n m -> (forall m', ~ mint m m') ->
  (forall t, In t (m_threads m) -> asking t = true -> t = TAsleep /\ m_init m = false /\ m_q m = 0%nat) /\
  (forall t, In t (m_threads m) -> (forall b, t <> TOpening b) /\ (forall b, t <> TOpenedOk b) /\ t <> TOpenFailed) /\
  total_to_notify (m_threads m) = 0%nat.
Proof. exact stuck_means_answered. Qed.
Print Assumptions C13_stuck_only_for_lack_of_blocks.

(** Once discovery has finished, the threads inside the queue's code run only
    finitely long by themselves, and then every caller has its answer. *)
Theorem C13_all_answered : forall c n m, mreach c n m -> m_init m = true ->
  (exists bound, forall k m', mrun k m m' -> (k <= bound)%nat) /\
  (forall k m', mrun k m m' -> (forall m'', ~ mint m' m'') ->
     forall t, In t (m_threads m') -> asking t = false).
Proof. exact all_answered. Qed.
Print Assumptions C13_all_answered.

(** numWaiters_ counts the waiting threads. *)
Theorem C13_waiters_counted : forall c n m, mreach c n m ->
  m_waiters m = Z.of_nat (how_many asleep (m_threads m) + how_many woken (m_threads m)).
Proof. exact waiters_counted. Qed.
Print Assumptions C13_waiters_counted.

(** waitForPreviousTransfer returns only when every sender thread waits for work
    (so none still holds a block of the previous batch). *)
Theorem C13_batch_end : forall c n m, mreach c n m -> batch_finished m n ->
  forall t, In t (m_threads m) -> holding t = false /\ (t = TAsleep \/ t = TWoken).
Proof. exact batch_end. Qed.
Print Assumptions C13_batch_end.

(** Once discovery has finished and threads have begun to ask, no step loses a block
    or makes one: it is in the queue, being opened, or handed out and not returned. A
    block that cannot be opened is dropped, and this is remembered for good. *)
Theorem C13_blocks_accounted : forall m m', mstep m m' -> m_init m = true -> m_called m = true ->
  m_init m' = true /\ m_called m' = true /\ (m_failed m = true -> m_failed m' = true) /\
  (accounted m' = accounted m \/ (accounted m = S (accounted m') /\ m_failed m' = true)).
Proof. exact blocks_accounted. Qed.
Print Assumptions C13_blocks_accounted.

(** A thread gets a block with the failure status of the moment it took the block from
    the queue; a block that does not open is recorded as failed and the thread asks
    again. *)
Theorem C13_block_status : forall m m' j b, mstep m m' ->
  (nth_error (m_threads m') j = Some (TOpening b) -> nth_error (m_threads m) j <> Some (TOpening b) ->
     b = m_failed m /\ m_q m = S (m_q m') /\
     (nth_error (m_threads m) j = Some TEnter \/ nth_error (m_threads m) j = Some TWoken)) /\
  (nth_error (m_threads m') j = Some (TGot b) -> nth_error (m_threads m) j <> Some (TGot b) ->
     nth_error (m_threads m) j = Some (TOpenedOk b) /\ m_deq m' = S (m_deq m)) /\
  (nth_error (m_threads m') j = Some (TOpenedOk b) -> nth_error (m_threads m) j <> Some (TOpenedOk b) ->
     nth_error (m_threads m) j = Some (TOpening b)) /\
  (nth_error (m_threads m) j = Some TOpenFailed -> nth_error (m_threads m') j <> Some TOpenFailed ->
     (j < length (m_threads m'))%nat -> nth_error (m_threads m') j = Some TEnter /\ m_failed m' = true).
Proof. exact block_status. Qed.
Print Assumptions C13_block_status.

(** All this relies on the received-chunk list being set before any thread asks
    for work, which the sender's protocol ensures. If it were set later, a thread
    could sleep for ever. *)
Theorem C13_late_resume_refuted : exists m m' m'',
  mreach 2 2 m /\ resume m [0%nat] 0 m' /\ mrun 1 m' m'' /\
  (forall x, ~ mint m'' x) /\ m_init m'' = true /\ m_q m'' = 0%nat /\
  nth_error (m_threads m'') 1 = Some TAsleep.
Proof. exact late_resume_stuck. Qed.
Print Assumptions C13_late_resume_refuted.

(** Two threads slept, one block was found and discovery ended: one thread is
    awake for the block, the other still asleep. *)
Example C13_example :
  mreach 2 2 late_m /\ m_init late_m = true /\ m_q late_m = 1%nat /\
  (exists t, In t (m_threads late_m) /\ asleep t = true) /\
  how_many woken (m_threads late_m) = 1%nat /\
  nth_error (m_threads (take late_m 0)) 0 = Some (TOpening false) /\
  nth_error (m_threads (take late_m 0)) 1 = Some TWoken /\
  nth_error (m_threads (take (take late_m 0) 1)) 1 = Some (TNone false).
Proof. split; [exact late_reach|]; repeat split; exists TAsleep; cbn; auto. Qed.

(** Both threads waiting, nothing queued: the previous batch is finished. *)
Example C13_batch_example : exists m, mreach 2 2 m /\ batch_finished m 2 /\
  m_threads m = [TAsleep; TAsleep].
Proof.
  pose proof (MR0 2 2) as R0.
  eapply (MRS 2 2 _ _) in R0; [|right; exact (MCall (mon_init 2 2) 0 eq_refl)]; cbn in R0.
  eapply MRS in R0; [|right; match type of R0 with mreach _ _ ?a => exact (MCall a 1 eq_refl) end]; cbn in R0.
  eapply MRS in R0; [|left; match type of R0 with mreach _ _ ?a => exact (MEnter a 0 eq_refl) end]; cbn in R0.
  eapply MRS in R0; [|left; match type of R0 with mreach _ _ ?a => exact (MEnter a 1 eq_refl) end]; cbn in R0.
  eexists; split; [exact R0|]; split; [split; [reflexivity|cbn; lia]|reflexivity].
Qed.

(** A block is popped, does not open, and is recorded. *)
Example C13_accounted_example :
  accounted late_m = 1%nat /\ m_called late_m = true /\ accounted (take late_m 0) = 1%nat /\
  exists m', mstep (with_threads (take late_m 0) [TOpenFailed; TWoken]) m' /\
    accounted m' = 0%nat /\ m_failed m' = true /\ m_threads m' = [TEnter; TWoken].
Proof.
  split; [reflexivity|]. split; [reflexivity|]. split; [reflexivity|].
  eexists. split; [left; apply (MFailed (with_threads (take late_m 0) [TOpenFailed; TWoken]) 0 eq_refl)|].
  split; [reflexivity|]. split; reflexivity.
Qed.
