(** C44, and the sender's half of C45: what a transfer has delivered when it is
    reported to have ended well, over all runs of both ends. *)
From Verif Require Import Proofs.TransferRuns Proofs.TransferAcked.
From Coq Require Import Lia.

(** C44. When one thread of the sender ends without an error, discovery is
    complete and every block that was found is on the receiver's disk, but for
    those the sender could not open and reports. For every number of ports, every
    set of blocks and every pattern of breaks, reconnections, partial blocks and
    failing ports, if checkpoints carry block identities, no receiver thread left
    without publishing its checkpoint and the sender refused no port's last
    checkpoint (the refutations below). *)
Theorem C44_all_delivered P l w i :
  NoDup (tp_ports P) -> tp_seqids P = true \/ tp_mode P <> Plain -> no_silent_exit l ->
  t_run P (world_init P) l = Some (Ret w) -> (tp_mode P = Plain -> w_refused w = false) ->
  sender_ok w i ->
  w_init w = true /\ forall b, In b (found l) -> reported w b \/ delivered (w_disk w) b.
Proof. exact (transfer_ok P l w i). Qed.
Print Assumptions C44_all_delivered.

(** With checksums or encryption tags the last two conditions are not needed. *)
Theorem C44_all_delivered_checked P l w i :
  NoDup (tp_ports P) -> tp_mode P <> Plain -> no_silent_exit l ->
  t_run P (world_init P) l = Some (Ret w) -> sender_ok w i ->
  w_init w = true /\ forall b, In b (found l) -> reported w b \/ delivered (w_disk w) b.
Proof.
  exact (fun Nd Md Ns E => transfer_ok P l w i Nd (or_intror Md) Ns E (fun K => match Md K with end)).
Qed.
Print Assumptions C44_all_delivered_checked.

(** Port 1 dies in the middle of a block; port 0 loses its connection in the
    middle of another and resumes; it is told of port 1's checkpoint, sends the
    rest of its block and ends well. *)
Example C44_all_delivered_nontrivial :
  exists w, NoDup (tp_ports (ports2 Plain true)) /\ no_silent_exit (good_run ++ end1 0) /\
    t_run (ports2 Plain true) (world_init (ports2 Plain true)) (good_run ++ end1 0) = Some (Ret w) /\
    w_refused w = false /\ sender_ok w 0 /\
    w_disk w = [(1, 0, 4); (2, 0, 20); (3, 5, 3); (3, 8, 4); (1, 4, 6)] /\
    found (good_run ++ end1 0) = [([98], 1, 0, 10); ([99], 2, 0, 20); ([100], 3, 5, 7)].
Proof.
  eexists. split; [repeat constructor; cbn; intuition discriminate|].
  split; [intros i e; cbn; intuition discriminate|]. split; [vm_compute; reflexivity|]. repeat split.
Qed.

(** A thread that ends without an error has been told that all the blocks in its
    history arrived: it returns none of them to the queue. *)
Theorem C44_confirmed P l w i hi :
  t_run P (world_init P) l = Some (Ret w) -> sender_ok w i ->
  nth_error (sn_hist (w_s w)) i = Some hi -> hi_acked hi = zlen (hi_list hi).
Proof. exact (ok_confirmed P l w i hi). Qed.
Print Assumptions C44_confirmed.
Example C44_confirmed_nontrivial : exists w hi,
  t_run (ports2 Plain true) (world_init (ports2 Plain true)) (good_run ++ end1 0) = Some (Ret w) /\ sender_ok w 0 /\
  nth_error (sn_hist (w_s w)) 0 = Some hi /\ hi_acked hi = 3.
Proof. eexists _, _. split; [vm_compute; reflexivity|]. repeat split. Qed.

(** C44 fails without checksums when a port breaks right behind a block's
    header, resumes, and dies inside the same block: its last checkpoint differs
    from the one before it only in the number of bytes. The sender refuses it
    (INVALID_CHECKPOINT), ignores that status, and never sends the block again. *)
Theorem C44_refused_checkpoint_refuted :
  exists P l w, NoDup (tp_ports P) /\ tp_seqids P = true /\ tp_mode P = Plain /\ no_silent_exit l /\
    t_run P (world_init P) l = Some (Ret w) /\ sender_ok w 0 /\ sn_queue (w_s w) = [] /\
    In ([98], 1, 0, 10) (found l) /\ ~ reported w ([98], 1, 0, 10) /\ ~ delivered (w_disk w) ([98], 1, 0, 10).
Proof.
  exists (ports2 Plain true), refused_run. eexists.
  split; [repeat constructor; cbn; intuition discriminate|]. split; [reflexivity|]. split; [reflexivity|].
  split; [intros i e; cbn; intuition discriminate|]. split; [vm_compute; reflexivity|]. split; [reflexivity|].
  split; [reflexivity|]. split; [left; reflexivity|]. split; [intros []|].
  intros [_ K]. destruct (K 5) as (lo & n & [E|[]] & B); [lia|]. injection E as <- <-. lia.
Qed.
Print Assumptions C44_refused_checkpoint_refuted.

(** C44 fails without checksums for a protocol version whose checkpoints do not
    name the block: bytes a port had when it last resumed are counted a second
    time when it dies. *)
Theorem C44_old_checkpoints_refuted :
  exists P l w, NoDup (tp_ports P) /\ tp_seqids P = false /\ tp_mode P = Plain /\ no_silent_exit l /\
    t_run P (world_init P) l = Some (Ret w) /\ sender_ok w 0 /\ w_refused w = false /\ sn_queue (w_s w) = [] /\
    In ([98], 1, 0, 10) (found l) /\ ~ reported w ([98], 1, 0, 10) /\ ~ delivered (w_disk w) ([98], 1, 0, 10).
Proof.
  exists (ports2 Plain false), twice_run. eexists.
  split; [repeat constructor; cbn; intuition discriminate|]. split; [reflexivity|]. split; [reflexivity|].
  split; [intros i e; cbn; intuition discriminate|]. split; [vm_compute; reflexivity|]. split; [reflexivity|].
  split; [reflexivity|]. split; [reflexivity|]. split; [left; reflexivity|]. split; [intros []|].
  intros [_ K]. destruct (K 5) as (lo & n & [E|[E|[]]] & B); [lia|injection E as <- <-; lia..].
Qed.
Print Assumptions C44_old_checkpoints_refuted.

(** C44 fails when a receiver thread leaves after a socket error that is not
    retried: what its sender had sent is neither received nor sent again. *)
Theorem C44_silent_exit_refuted :
  exists P l w, NoDup (tp_ports P) /\ tp_seqids P = true /\ t_run P (world_init P) l = Some (Ret w) /\
    sender_ok w 0 /\ w_refused w = false /\ sn_queue (w_s w) = [] /\
    In ([98], 1, 0, 10) (found l) /\ ~ reported w ([98], 1, 0, 10) /\ w_disk w = [].
Proof.
  exists (ports2 Plain true), silent_run. eexists.
  split; [repeat constructor; cbn; intuition discriminate|]. split; [reflexivity|].
  split; [vm_compute; reflexivity|]. split; [reflexivity|]. split; [reflexivity|]. split; [reflexivity|].
  split; [left; reflexivity|]. split; [intros []|reflexivity].
Qed.
Print Assumptions C44_silent_exit_refuted.

(** With encryption tags "delivered" cannot be "verified": a port is told the end
    while a block of another port waits for its tag; that port's thread of the
    receiver then fails without ever having verified the block. *)
Theorem C44_verified_refuted :
  exists P l w, NoDup (tp_ports P) /\ tp_mode P = Tagged /\ no_silent_exit l /\
    t_run P (world_init P) l = Some (Ret w) /\ sender_ok w 0 /\ sn_queue (w_s w) = [] /\
    In ([98], 1, 0, 10) (found l) /\ ~ reported w ([98], 1, 0, 10) /\
    (forall k h, ident h = ([98], 1, 0, 10) -> ~ counted_by w k h) /\
    exists t, nth_error (rs_threads (w_r w)) 1 = Some t /\ rt_ph t = PGone.
Proof.
  exists (ports2 Tagged true), tag_run. eexists.
  split; [repeat constructor; cbn; intuition discriminate|]. split; [reflexivity|].
  split; [intros i e; cbn; intuition discriminate|]. split; [vm_compute; reflexivity|]. split; [reflexivity|].
  split; [reflexivity|]. split; [left; reflexivity|]. split; [intros []|]. split.
  - intros k h _ (hi & t & m & E1 & E2 & E3 & B). destruct k as [|[|k]]; cbn in E1, E2.
    + injection E1 as <-. destruct m; discriminate E3.
    + injection E1 as <-. injection E2 as <-. cbn in B. lia.
    + destruct k; discriminate E1.
  - eexists. split; reflexivity.
Qed.
Print Assumptions C44_verified_refuted.

(** C45. Before the receiver reports the end of the transfer to any port, every
    block found, but for those reported, is in the history of a thread of the
    sender, at a place the receiver's thread on that port has received. What a
    failed port did not confirm has therefore been taken over by other ports. *)
Theorem C45_end_after_all_blocks P l w e w' j :
  NoDup (tp_ports P) -> tp_seqids P = true \/ tp_mode P <> Plain -> no_silent_exit (l ++ [e]) ->
  t_run P (world_init P) l = Some (Ret w) -> (forall k, ~ In (OEnding k) (w_outs w)) ->
  t_step P w e = Some (Ret w') -> In (OEnding j) (w_outs w') -> (tp_mode P = Plain -> w_refused w = false) ->
  forall b, In b (found l) -> reported w' b \/ exists k h, ident h = b /\ received_by w' k h.
Proof. exact (ending_received P l w e w' j). Qed.
Print Assumptions C45_end_after_all_blocks.

(** Without encryption tags they are also counted in that thread's checkpoint:
    verified where there is a checksum. *)
Theorem C45_end_after_all_verified P l w e w' j :
  NoDup (tp_ports P) -> tp_mode P <> Tagged -> tp_seqids P = true \/ tp_mode P <> Plain ->
  no_silent_exit (l ++ [e]) ->
  t_run P (world_init P) l = Some (Ret w) -> (forall k, ~ In (OEnding k) (w_outs w)) ->
  t_step P w e = Some (Ret w') -> In (OEnding j) (w_outs w') -> (tp_mode P = Plain -> w_refused w = false) ->
  forall b, In b (found l) -> reported w' b \/ exists k h, ident h = b /\ counted_by w' k h.
Proof. exact (ending_counted P l w e w' j). Qed.
Print Assumptions C45_end_after_all_verified.

(** The run above up to the step that reports the end: all three blocks are in
    port 0's history by then, one of them taken over from port 1. *)
Example C45_end_after_all_blocks_nontrivial :
  exists l w w' hi, good_run = l ++ [TRecv 0 INone] /\ no_silent_exit (l ++ [TRecv 0 INone]) /\
    t_run (ports2 Plain true) (world_init (ports2 Plain true)) l = Some (Ret w) /\
    (forall k, ~ In (OEnding k) (w_outs w)) /\ w_refused w = false /\
    t_step (ports2 Plain true) w (TRecv 0 INone) = Some (Ret w') /\ In (OEnding 0) (w_outs w') /\
    nth_error (sn_hist (w_s w')) 0 = Some hi /\
    map ident (hi_list hi) = [([99], 2, 0, 20); ([100], 3, 5, 7); ([98], 1, 0, 10)].
Proof.
  exists (removelast good_run). eexists _, _, _. split; [reflexivity|].
  split; [intros i e; cbn; intuition discriminate|]. split; [vm_compute; reflexivity|].
  split; [intros k; cbn; intuition discriminate|]. split; [reflexivity|]. split; [vm_compute; reflexivity|].
  split; [cbn; tauto|]. split; reflexivity.
Qed.
