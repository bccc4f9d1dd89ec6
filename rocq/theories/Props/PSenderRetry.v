(** C46, C47: how often a sender thread connects again and how long it waits. *)
From Coq Require Import Lia.
From Verif Require Import Proofs.SenderRetryFacts.
Import ListNotations.
Open Scope Z_scope.

(** C46. Against a receiver that confirms only what it was sent, a stretch of a sender
    thread's execution in which nothing new is confirmed to it has at most
    max_transfer_retries + 3 connections, once it was told a checkpoint (before that,
    max_transfer_retries more: the first checkpoint always counts as progress). The 3:
    the first connection of all, the one after a version mismatch and one in vain. *)
Theorem C46_without_progress : forall o n i l1 l2 s1 s2, 0 < so_transfer o ->
  honest o (sthread_new (sender_init n) i) (l1 ++ l2) ->
  sr_run o (sthread_new (sender_init n) i) l1 = Some (Ret s1) ->
  sr_run o s1 l2 = Some (Ret s2) -> gains o s1 l2 = 0 ->
  sr_conns s2 - sr_conns s1 <= 2 * so_transfer o + 3 /\
  (told i (sr_w s1) = true -> sr_conns s2 - sr_conns s1 <= so_transfer o + 3).
Proof. exact stretch_reconnects. Qed.
Print Assumptions C46_without_progress.
(** All connections together: bounded by the blocks and bytes found. *)
Theorem C46_total : forall o n i l s, 0 < so_transfer o ->
  honest o (sthread_new (sender_init n) i) l ->
  sr_run o (sthread_new (sender_init n) i) l = Some (Ret s) ->
  sr_conns s <= so_transfer o * (found_blocks (sr_w s) + found_bytes (sr_w s) + 2) + 3.
Proof. exact total_reconnects. Qed.
Print Assumptions C46_total.
(** Each connection takes at most max_retries attempts (at least one). *)
Theorem C46_attempts : forall o n i l s, 0 < so_transfer o ->
  honest o (sthread_new (sender_init n) i) l ->
  sr_run o (sthread_new (sender_init n) i) l = Some (Ret s) ->
  sr_dials s <= Z.max 1 (so_retries o) * sr_conns s.
Proof. exact attempts_bound. Qed.
Print Assumptions C46_attempts.
(** They stop at the first one that settles the matter, and only a connection that
    was made counts as one. *)
Theorem C46_verdict : forall m l code n, connectToReceiver m (Dial l) = Some (code, n) ->
  exists pre x post, l = pre ++ x :: post /\ n = zlen pre + 1 /\ n <= Z.max 1 m /\
    Forall goes_on pre /\ verdict (Z.max 1 m) n x code.
Proof. exact dials_verdict. Qed.
Print Assumptions C46_verdict.
Example C46_verdict_case :
  connectToReceiver 3 (Dial [(CONN_ERROR_RETRYABLE, OK); (OK, OK)]) = Some (OK, 2) /\
  connectToReceiver 2 (Dial [(CONN_ERROR_RETRYABLE, OK); (CONN_ERROR_RETRYABLE, OK); (OK, OK)]) = Some (CONN_ERROR, 2) /\
  connectToReceiver 0 (Dial [(OK, OK)]) = Some (OK, 1).
Proof. vm_compute. auto. Qed.
(** A block of 10 bytes, broken off after 6 of which 4 arrived, then finished. *)
Example C46_case :
  honest opts3 (sthread_new (sender_init 1) 0) (broken_run ++ recovered_run) /\
  sr_run opts3 (sthread_new (sender_init 1) 0) broken_run = Some (Ret (after broken_run)) /\
  sr_run opts3 (after broken_run) recovered_run = Some (Ret (after (broken_run ++ recovered_run))) /\
  gains opts3 (sthread_new (sender_init 1) 0) broken_run = 0 /\
  gains opts3 (after broken_run) recovered_run = 1 /\
  confirmed_bytes (sr_w (after (broken_run ++ recovered_run))) = 4 /\
  (sr_conns (after (broken_run ++ recovered_run)), sr_dials (after (broken_run ++ recovered_run)),
   sr_state (after (broken_run ++ recovered_run))) = (2, 3, SEnd).
Proof.
  split; [exact broken_honest|]. split; [vm_compute; reflexivity|]. split; [vm_compute; reflexivity|].
  split; [vm_compute; reflexivity|]. split; [vm_compute; reflexivity|]. split; [vm_compute; reflexivity|].
  vm_compute. reflexivity.
Qed.

(** A receiver that makes up confirmations keeps the thread reconnecting as often as it
    likes, though there is nothing to send. *)
Theorem C46_liar_refuted : forall k, exists l s,
  sr_run opts3 (sthread_new (sender_init 1) 0) l = Some (Ret s) /\
  k <= sr_conns s /\ found_blocks (sr_w s) = 0 /\ found_bytes (sr_w s) = 0.
Proof. exact liar_forever. Qed.
Print Assumptions C46_liar_refuted.
(** Nor need a thread end that does not reconnect: the receiver may say WAIT for ever. *)
Theorem C46_wait_refuted : forall k, exists l s,
  sr_run opts3 (sthread_new (sender_init 1) 0) l = Some (Ret s) /\
  (k <= length l)%nat /\ sr_conns s = 1 /\ sr_state s <> SEnd.
Proof. exact wait_forever. Qed.
Print Assumptions C46_wait_refuted.
(** With max_transfer_retries = 0 the first connect uses a null socket. *)
Theorem C46_zero_refuted : exists d,
  sr_run {| so_retries := 1; so_transfer := 0 |} (sthread_new (sender_init 1) 0) [IConnect OK d false] = Some Undef.
Proof. exists dials_ok. vm_compute. reflexivity. Qed.
Print Assumptions C46_zero_refuted.

(** C47. The sender keeps waiting exactly while every read times out and the system
    reports fewer (but some) unacknowledged bytes each time ... *)
Theorem C47_while_decreasing : forall u l f, readNextReceiverCmd u l f = None <-> draining u l.
Proof. exact waits_iff. Qed.
Print Assumptions C47_while_decreasing.
(** ... so it stops after at most as many time-outs as there were such bytes. *)
Theorem C47_ends : forall u l f, Z.max 1 u <= zlen l -> exists r, readNextReceiverCmd u l f = Some r.
Proof. exact waits_end. Qed.
Print Assumptions C47_ends.
Example C47_case :
  draining 9 [tout 7; tout 2] /\
  readNextReceiverCmd 9 [tout 7; tout 2; byte] 0 = Some (Ret OK) /\
  readNextReceiverCmd 9 [tout 7; tout 2; tout 2] 0 = Some (Ret SOCKET_READ_ERROR) /\
  readNextReceiverCmd 9 [tout 7; tout 0] 1 = Some (Ret OK) /\
  readNextReceiverCmd 1 [tout 1] 1 = Some (Ret SOCKET_READ_ERROR).
Proof.
  split. { econstructor; [apply tout_out|lia|]. econstructor; [apply tout_out|lia|constructor]. }
  repeat split.
Qed.
(** It stops with OK exactly when the receiver answered. *)
Theorem C47_answer : forall u l f, readNextReceiverCmd u l f = Some (Ret OK) <-> answered u l f.
Proof. exact answer_iff. Qed.
Print Assumptions C47_answer.
(** The process survives if the count never grows ... *)
Theorem C47_no_crash : forall u l f, no_growth u l -> Forall (fun x => tn_read x <= 1) l ->
  readNextReceiverCmd u l f <> Some Crash.
Proof. exact waits_safe. Qed.
Print Assumptions C47_no_crash.
Example C47_no_crash_case : no_growth 9 [tout 7; tout 2; byte] /\
  Forall (fun x => tn_read x <= 1) [tout 7; tout 2; byte].
Proof. split; [repeat (constructor; [cbn; lia|]); constructor|repeat (constructor; [cbn; lia|]); constructor]. Qed.
(** ... and a check stops it if the count grows. *)
Theorem C47_growth_refuted : exists u l f, readNextReceiverCmd u l f = Some Crash.
Proof. exists 3, [tout 2; tout 5], 0. vm_compute. reflexivity. Qed.
Print Assumptions C47_growth_refuted.
