(** C40, C41: the resource controller. *)
From Coq Require Import Lia.
From Verif Require Import Proofs.ResourceWitness.
Import ListNotations.
Open Scope Z_scope.

(** C40. Every number of threads, every call of theirs and every interleaving: the
    global counter is the sum over the registered namespaces, over those taken away,
    and of what calls are about to fill or give back. *)
Theorem C40_counter : forall max nsmax n evs s sd,
  ry_run evs (ry_init max nsmax n) = Some s ->
  counter sd s = registered sd s + stranded sd s + in_flight sd s.
Proof. exact counter_eq. Qed.
Print Assumptions C40_counter.
Example C40_counter_case :
  ry_run busy_run (ry_init (Two 5 5) (Two 3 3) 2) = Some (after 5 3 2 busy_run) /\
  counter Snd (after 5 3 2 busy_run) = 3 /\ registered Snd (after 5 3 2 busy_run) = 1 /\ in_flight Snd (after 5 3 2 busy_run) = 2.
Proof. vm_compute. auto. Qed.

(** As claimed, when no namespace is taken away. *)
Theorem C40_counter_keeps : forall max nsmax n evs s sd,
  ry_run evs (ry_init max nsmax n) = Some s -> Forall keeps (ry_calls s) ->
  stranded sd s = 0.
Proof. exact stranded_none. Qed.
Print Assumptions C40_counter_keeps.
Example C40_counter_keeps_case :
  ry_run busy_run (ry_init (Two 5 5) (Two 3 3) 2) = Some (after 5 3 2 busy_run) /\
  Forall keeps (ry_calls (after 5 3 2 busy_run)) /\ length (rs_heap (ry_share (after 5 3 2 busy_run))) = 2%nat.
Proof. split; [vm_compute; reflexivity|]. split; [calls|vm_compute; reflexivity]. Qed.

(** The limits: neither the objects nor the counter pass a bound on the global
    limits set, nor the objects of a namespace one on its limits. *)
Theorem C40_limit : forall max nsmax n evs s sd m,
  ry_run evs (ry_init max nsmax n) = Some s ->
  0 < get sd max <= m -> Forall (within sd m) (ry_calls s) ->
  live sd s <= m /\ counter sd s <= m.
Proof. exact limits_hold. Qed.
Print Assumptions C40_limit.
Theorem C40_ns_limit : forall max nsmax n evs s sd ns m k nc,
  ry_run evs (ry_init max nsmax n) = Some s ->
  0 < get sd nsmax <= m -> Forall (ns_within sd ns m) (ry_calls s) ->
  nth_error (rs_heap (ry_share s)) k = Some nc -> nc_name nc = ns -> live_in sd s k <= m.
Proof. exact ns_limits_hold. Qed.
Print Assumptions C40_ns_limit.
Example C40_limit_case :
  ry_run busy_run (ry_init (Two 3 3) (Two 2 2) 2) = Some (after 3 2 2 busy_run) /\
  Forall (within Snd 3) (ry_calls (after 3 2 2 busy_run)) /\ Forall (ns_within Snd 2 2) (ry_calls (after 3 2 2 busy_run)) /\
  counter Snd (after 3 2 2 busy_run) = 3 /\ live Snd (after 3 2 2 busy_run) = 1 /\
  ry_run (busy_run ++ [st 0]) (ry_init (Two 3 3) (Two 2 2) 2) = Some (after 3 2 2 (busy_run ++ [st 0])) /\
  live_in Snd (after 3 2 2 (busy_run ++ [st 0])) 1 = 2.
Proof.
  split; [vm_compute; reflexivity|]. split; [calls|]. split; [calls|]. vm_compute. auto.
Qed.

(** With no call under way, a transfer below the limits can be made ... *)
Theorem C40_available : forall max nsmax n evs s i sd ns id tid k nc,
  ry_run evs (ry_init max nsmax n) = Some s ->
  Forall keeps (ry_calls s) -> all_idle s -> (i < length (ry_threads s))%nat ->
  lookup ns (rs_map (ry_share s)) = Some k -> nth_error (rs_heap (ry_share s)) k = Some nc ->
  lookup id (po_map (pool_of sd nc)) = None ->
  limit sd s <= 0 \/ registered sd s < limit sd s ->
  po_max (pool_of sd nc) <= 0 \/ live_in sd s k < po_max (pool_of sd nc) ->
  exists s', ry_run [EvCall i (CCreate sd ns id tid); EvStep i quiet; EvStep i quiet] s = Some s' /\
    ry_log s' = ry_log s ++ [(length (ry_calls s), KDirect, OK)].
Proof. exact available. Qed.
Print Assumptions C40_available.
(** ... and a slot that is released can be taken at once, the limits being reached
    or not. *)
Theorem C40_reusable : forall max nsmax n evs s i j sd ns id o id' tid k nc,
  ry_run evs (ry_init max nsmax n) = Some s ->
  Forall keeps (ry_calls s) -> all_idle s -> (i < length (ry_threads s))%nat -> (j < length (ry_threads s))%nat ->
  lookup ns (rs_map (ry_share s)) = Some k -> nth_error (rs_heap (ry_share s)) k = Some nc ->
  In (id, o) (po_map (pool_of sd nc)) -> id' = id \/ lookup id' (po_map (pool_of sd nc)) = None ->
  counter sd s <= limit sd s -> po_num (pool_of sd nc) <= po_max (pool_of sd nc) ->
  exists s', ry_run ([EvCall i (CRelease sd ns (One id)); EvStep i quiet; EvStep i quiet; EvStep i quiet] ++
                     [EvCall j (CCreate sd ns id' tid); EvStep j quiet; EvStep j quiet]) s = Some s' /\
    exists c c', ry_log s' = ry_log s ++ [(c, KDirect, OK); (c', KDirect, OK)].
Proof. exact reusable. Qed.
Print Assumptions C40_reusable.
Example C40_available_case :
  ry_run quiet_run (ry_init (Two 2 2) (Two 1 1) 2) = Some (after 2 1 2 quiet_run) /\
  Forall keeps (ry_calls (after 2 1 2 quiet_run)) /\ ry_threads (after 2 1 2 quiet_run) = [RIdle; RIdle] /\
  lookup 2 (rs_map (ry_share (after 2 1 2 quiet_run))) = Some 1%nat /\
  counter Snd (after 2 1 2 quiet_run) = limit Snd (after 2 1 2 quiet_run) /\
  live_in Snd (after 2 1 2 quiet_run) 1 = 1 /\ registered Rcv (after 2 1 2 quiet_run) < limit Rcv (after 2 1 2 quiet_run).
Proof. split; [vm_compute; reflexivity|]. split; [calls|]. vm_compute. auto 10. Qed.

(** Not so when deRegisterWdtNamespace runs while a sender is being made: the sender
    goes to a namespace controller nobody can reach, and its slot is lost. Here with
    limit 1 no sender is ever made again. *)
Theorem C40_dereg_refuted : exists evs s,
  ry_run evs (ry_init (Two 1 1) (Two 5 5) 2) = Some s /\ all_idle s /\ registered Snd s = 0 /\
  forall evs' s', ry_run evs' s = Some s' -> Forall (within Snd 1) (ry_calls s') ->
    registered Snd s' = 0 /\ in_flight Snd s' = 0 /\ counter Snd s' = 1.
Proof.
  exists race_run, (after 1 5 2 race_run). split; [vm_compute; reflexivity|]. split.
  - intros t Ht. vm_compute in Ht. destruct Ht as [<-|[<-|[]]]; reflexivity.
  - split; [vm_compute; reflexivity|exact race_forever].
Qed.
Print Assumptions C40_dereg_refuted.
(** And shutdown() while a sender is being made ends the process. *)
Theorem C40_shutdown_refuted : exists evs s,
  ry_run evs (ry_init (Two 1 1) (Two 5 5) 2) = Some s /\ rs_crash (ry_share s) = true.
Proof. exists shutdown_run, (after 1 5 2 shutdown_run). vm_compute. auto. Qed.
Print Assumptions C40_shutdown_refuted.
(** The limit is on objects in the maps, not on transfers: three senders transfer
    under a limit of two. *)
Theorem C40_running_refuted : exists evs s,
  ry_run evs (ry_init (Two 2 2) (Two 2 2) 4) = Some s /\ limit Snd s = 2 /\
  length (filter transferring (ry_threads s)) = 3%nat.
Proof. exists overrun, (after 2 2 4 overrun). vm_compute. auto. Qed.
Print Assumptions C40_running_refuted.

(** C41. A slot in a registered namespace whose sender was made by a wdtSend that
    returned: only when init() failed. *)
Theorem C41_send : forall max nsmax n evs s c ns key tid t,
  ry_run evs (ry_init max nsmax n) = Some s ->
  nth_error (ry_calls s) c = Some (CSend ns key tid t) -> returned_call s c -> (exists sd, has_slot sd s c) ->
  exists ns' id o code, In (c, KSendInit ns' id o, code) (ry_log s) /\ code <> OK.
Proof. exact send_slot. Qed.
Print Assumptions C41_send.
Example C41_send_case :
  ry_run send_run (ry_init (Two 1 1) (Two 1 1) 1) = Some (after 1 1 1 send_run) /\
  ry_log (after 1 1 1 send_run) = [(0%nat, KSendEnd 1 7 0 ERROR, ERROR)] /\ counter Snd (after 1 1 1 send_run) = 0.
Proof. vm_compute. auto. Qed.
(** And one made by a wdtReceiveStart that returned: only when init() failed or the
    transfer was begun; never when the receiver could not be made. *)
Theorem C41_recv : forall max nsmax n evs s c ns id tid,
  ry_run evs (ry_init max nsmax n) = Some s ->
  nth_error (ry_calls s) c = Some (CRecvStart ns id tid) -> returned_call s c -> (exists sd, has_slot sd s c) ->
  exists o code, (In (c, KRecvInit o, code) (ry_log s) /\ code <> OK) \/ In (c, KRecvAsync o, code) (ry_log s).
Proof. exact recv_slot. Qed.
Print Assumptions C41_recv.
Example C41_recv_case :
  ry_run recv_refused_run (ry_init (Two 2 2) (Two 2 2) 2) = Some (after 2 2 2 recv_refused_run) /\
  ry_log (after 2 2 2 recv_refused_run) = [(0%nat, KRecvAsync 0, OK); (1%nat, KRecv, ALREADY_EXISTS)] /\
  counter Rcv (after 2 2 2 recv_refused_run) = 1.
Proof. vm_compute. auto. Qed.
(** When init() fails, either call returns an error and leaves its slot taken. *)
Theorem C41_send_refuted : exists evs s,
  ry_run evs (ry_init (Two 1 1) (Two 1 1) 1) = Some s /\ ry_calls s = [CSend 1 7 5 false] /\
  ry_threads s = [RIdle] /\ ry_log s = [(0%nat, KSendInit 1 7 0, ERROR)] /\ counter Snd s = 1 /\ has_slot Snd s 0.
Proof.
  exists send_fail_run, (after 1 1 1 send_fail_run). do 5 (split; [vm_compute; reflexivity|]).
  exists 1, 0%nat, (nth 0 (rs_heap (ry_share (after 1 1 1 send_fail_run))) (new_ns (ry_share (after 1 1 1 [])) 0)), 7, 0%nat.
  eexists. vm_compute. auto 10.
Qed.
Print Assumptions C41_send_refuted.
Theorem C41_recv_refuted : exists evs s,
  ry_run evs (ry_init (Two 1 1) (Two 1 1) 1) = Some s /\ ry_calls s = [CRecvStart 1 7 5] /\
  ry_threads s = [RIdle] /\ ry_log s = [(0%nat, KRecvInit 0, ERROR)] /\ counter Rcv s = 1 /\ has_slot Rcv s 0.
Proof.
  exists recv_fail_run, (after 1 1 1 recv_fail_run). do 5 (split; [vm_compute; reflexivity|]).
  exists 1, 0%nat, (nth 0 (rs_heap (ry_share (after 1 1 1 recv_fail_run))) (new_ns (ry_share (after 1 1 1 [])) 0)), 7, 0%nat.
  eexists. vm_compute. auto 10.
Qed.
Print Assumptions C41_recv_refuted.
(** A release takes the slots of the transfers it is about and no others, ... *)
Theorem C41_released : forall s i c k sd j w ch s' nc,
  nth_error (ry_threads s) i = Some (RBusy c k (ORelease2 sd j w)) -> ry_step s (EvStep i ch) = Some s' ->
  nth_error (rs_heap (ry_share s)) j = Some nc ->
  exists nc', rs_heap (ry_share s') = set_nth (rs_heap (ry_share s)) j nc' /\
    (forall id o, In (id, o) (po_map (pool_of sd nc')) <->
       In (id, o) (po_map (pool_of sd nc)) /\ ~ asked w (rc_stale ch) id) /\
    forall sd', sd' <> sd -> pool_of sd' nc' = pool_of sd' nc.
Proof. exact released. Qed.
Print Assumptions C41_released.
Example C41_released_case :
  ry_run stale_run (ry_init (Two 5 5) (Two 3 3) 1) = Some (after 5 3 1 stale_run) /\
  nth_error (ry_threads (after 5 3 1 stale_run)) 0 = Some (RBusy 2 KDirect (ORelease2 Snd 0 Stale)) /\
  live Snd (after 5 3 1 stale_run) = 2 /\
  live Snd (after 5 3 1 (stale_run ++ [EvStep 0 {| rc_code := OK; rc_stale := [8] |}])) = 1.
Proof. vm_compute. auto. Qed.
(** ... and a call says what came of it: NOT_FOUND for a receiver that is not there,
    otherwise what the transfer said. *)
Theorem C41_says : forall max nsmax n evs s c k code,
  ry_run evs (ry_init max nsmax n) = Some s -> In (c, k, code) (ry_log s) -> says k code.
Proof. exact calls_say. Qed.
Print Assumptions C41_says.
Example C41_says_case :
  ry_run [EvCall 0 (CRecvFinish 1 7); st 0] (ry_init (Two 1 1) (Two 1 1) 1) =
    Some (after 1 1 1 [EvCall 0 (CRecvFinish 1 7); st 0]) /\
  ry_log (after 1 1 1 [EvCall 0 (CRecvFinish 1 7); st 0]) = [(0%nat, KFinGet 1 7, NOT_FOUND)].
Proof. vm_compute. auto. Qed.
(** A wdtSend replaced by another to the same destination releases the other's slot:
    the second still transfers, and has none. *)
Theorem C41_replace_refuted : exists evs s,
  ry_run evs (ry_init (Two 2 2) (Two 2 2) 4) = Some s /\ ry_calls s = [CSend 1 7 5 false; CSend 1 7 6 true] /\
  nth_error (ry_threads s) 1 = Some (RBusy 1 (KSendRun 1 7 1) OUser) /\ counter Snd s = 0 /\ live Snd s = 0.
Proof. exists replace_run, (after 2 2 4 replace_run). vm_compute. auto 10. Qed.
Print Assumptions C41_replace_refuted.
