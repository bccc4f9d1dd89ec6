(** C53, and the receiver's half of C45: what the ports of a receiver are told
    about failed ports, over all interleavings of the receiver's threads. *)
From Verif Require Import Proofs.RecvSessionFacts.

(** C53. Every ERR command carries, in order and without a gap, the first of the
    checkpoints of this session's failed ports that the sender on this port has
    not confirmed with a later command. *)
Theorem C53_told_in_order ports l s pre i cs post :
  rs_run (rsession_init ports) l = Some (Ret (s, pre ++ OTold i cs :: post)) -> served pre ->
  cs <> [] /\ exists rest, map snd (added pre) = confirmed i pre ++ cs ++ rest.
Proof. exact (told_in_order ports l s pre i cs post). Qed.
Print Assumptions C53_told_in_order.

(** C53. A port is never told its own checkpoint. *)
Theorem C53_told_not_own ports l s pre i cs post :
  rs_run (rsession_init ports) l = Some (Ret (s, pre ++ OTold i cs :: post)) -> served pre ->
  ~ In i (map fst (added pre)).
Proof. exact (told_not_own ports l s pre i cs post). Qed.
Print Assumptions C53_told_not_own.

(** C53. The end of the transfer is reported on a port only when the sender on
    this port has confirmed every checkpoint of this session. *)
Theorem C53_end_after_all ports l s pre i post :
  rs_run (rsession_init ports) l = Some (Ret (s, pre ++ OEnding i :: post)) -> served pre ->
  confirmed i pre = map snd (added pre).
Proof. exact (end_after_all ports l s pre i post). Qed.
Print Assumptions C53_end_after_all.

(** C53. A waiting port with unconfirmed checkpoints tells all of them next,
    also those it told before on a connection that broke. *)
Theorem C53_told_again ports l s outs i t :
  rs_run (rsession_init ports) l = Some (Ret (s, outs)) -> served outs -> rs_abort s = false ->
  nth_error (rs_threads s) i = Some t -> rt_ph t = PSleep \/ rt_ph t = PCheck /\ 0 < rt_timeout t ->
  confirmed i outs <> map snd (added outs) ->
  exists s' new, rs_run s [EThread i INone; EThread i (IWrite true)] = Some (Ret (s', [OTold i new])) /\
    map snd (added outs) = confirmed i outs ++ new.
Proof. exact (told_again ports l s outs i t). Qed.
Print Assumptions C53_told_again.

(** A run in which port 2 fails after a block; port 1 is told, reconnects, is
    told again, confirms with a block and ends. *)
Example C53_nontrivial :
  exists s outs, rs_run (rsession_init [11; 12])
    [EThread 0 (IListen true); EThread 1 (IListen true); EThread 0 IFirst; EThread 1 IFirstOther;
     EThread 0 (ICmd (CSettings 1000 false)); EThread 1 IAccept; EThread 1 (ICmd (CFile 7 0 FVerified));
     EThread 1 (ICmd CReadFail); EThread 1 (IAcceptFail CONN_ERROR); EThread 0 (ICmd CDone);
     EThread 0 INone; EThread 1 INone; EThread 0 INone; EThread 0 (IWrite true); EThread 0 (ICmd CReadFail);
     EThread 0 IAccept; EThread 0 (IWrite true); EThread 0 (ICmd (CSettings 1000 false));
     EThread 0 (ICmd CDone); EThread 0 INone; EThread 0 INone; EThread 0 (IWrite true);
     EThread 0 (ICmd (CFile 8 0 FVerified)); EThread 0 (ICmd CDone); EThread 0 INone; EThread 0 INone]
    = Some (Ret (s, outs)) /\ served outs /\ ending 0 outs = true /\
    map fst (added outs) = [1%nat] /\
    outs = [OAccepted 0; OAccepted 1; OCommand 1; OCommand 0; OAdded 1 (ck_incr (checkpoint_new 12) 1);
            OTold 0 [ck_incr (checkpoint_new 12) 1]; OAccepted 0; OLocal 0 (checkpoint_new 11); OCommand 0;
            OTold 0 [ck_incr (checkpoint_new 12) 1]; OCommand 0; OCommand 0; OEnding 0].
Proof. vm_compute. do 2 eexists. repeat split. Qed.

(** C53 fails for "never a checkpoint of another session": when all ports of a
    long-running receiver give up waiting for a first connection, their
    checkpoints stay, and the ports tell them in the next session. *)
Theorem C53_other_session_refuted :
  exists ports l s pre i cs post,
    rs_run (rsession_init ports) l = Some (Ret (s, pre ++ OTold i cs :: post)) /\
    orderly l /\ added pre = [] /\ In (ck_port (checkpoint_new (nth i ports 0))) (map ck_port cs).
Proof.
  exists [11; 12],
    [EThread 0 (IListen true); EThread 1 (IListen true); EThread 0 (IFirstFail CONN_ERROR);
     EThread 1 (IFirstFail CONN_ERROR); EThread 0 INone; EThread 1 INone; EThread 0 INone; EThread 1 INone;
     ENext; EThread 0 (IListen true); EThread 0 IFirst; EThread 0 (ICmd (CSettings 1000 false));
     EThread 0 (ICmd CDone); EThread 0 INone; EThread 0 INone; EThread 0 (IWrite true)].
  eexists _, [OAdded 0 (checkpoint_new 11); OAdded 1 (checkpoint_new 12); OGone 0; OGone 1; OSession;
              OAccepted 0; OCommand 0], 0%nat, [checkpoint_new 11; checkpoint_new 12], [].
  split; [vm_compute; reflexivity|]. split; [|split; [reflexivity|left; reflexivity]].
  split; [|intros i e]; cbn; intuition discriminate.
Qed.
Print Assumptions C53_other_session_refuted.

(** C45. When a port is told the end of the transfer, every other port waits
    after its sender's DONE, was told the end as well, or failed and the sender
    on this port has confirmed its checkpoint. *)
Theorem C45_end_for_all ports l s outs e s' i :
  rs_run (rsession_init ports) l = Some (Ret (s, outs)) -> served outs -> orderly l ->
  rs_step s e = Some (Ret (s', [OEnding i])) ->
  forall j u, j <> i -> nth_error (rs_threads s) j = Some u ->
  waits u \/ ending j outs = true \/ exists c, In (j, c) (added outs) /\ In c (confirmed i outs).
Proof. exact (end_for_all ports l s outs e s' i). Qed.
Print Assumptions C45_end_for_all.

Example C45_end_for_all_nontrivial :
  exists s outs s', rs_run (rsession_init [11; 12; 13])
    [EThread 0 (IListen true); EThread 1 (IListen true); EThread 2 (IListen true); EThread 0 IFirst;
     EThread 1 IFirst; EThread 2 (IFirstOther); EThread 0 (ICmd (CSettings 1000 false));
     EThread 1 (ICmd (CSettings 1000 false)); EThread 2 (IAcceptFail CONN_ERROR); EThread 2 INone;
     EThread 1 (ICmd CDone); EThread 1 INone; EThread 1 INone; EThread 1 (IWrite true); EThread 1 (ICmd CDone);
     EThread 1 INone; EThread 0 (ICmd CDone); EThread 0 INone; EThread 0 INone; EThread 0 (IWrite true);
     EThread 0 (ICmd CDone); EThread 0 INone]
    = Some (Ret (s, outs)) /\ served outs /\ rs_step s (EThread 0 INone) = Some (Ret (s', [OEnding 0])).
Proof. vm_compute. do 3 eexists. repeat split. Qed.

(** C45 fails for a port whose socket met an error after which it does not
    accept again (an unexpected command or a protocol error in the encryption
    handshake, which any peer can cause): the thread leaves without adding its
    checkpoint, and the other ports are told the end. *)
Theorem C45_abandoned_port_refuted :
  exists ports l s outs e s' i j u,
    rs_run (rsession_init ports) l = Some (Ret (s, outs)) /\ served outs /\ ~ In EAbort l /\
    rs_step s e = Some (Ret (s', [OEnding i])) /\ j <> i /\ nth_error (rs_threads s) j = Some u /\
    ~ waits u /\ ending j outs = false /\ added outs = [].
Proof.
  exists [11; 12],
    [EThread 0 (IListen true); EThread 1 (IListen true); EThread 0 IFirst; EThread 1 IFirst;
     EThread 0 (ICmd (CSettings 1000 false)); EThread 1 (ICmd (CSettings 1000 false));
     EThread 1 (ICmd CReadFail); EThread 1 (INonRetryable UNEXPECTED_CMD_ERROR); EThread 1 INone;
     EThread 0 (ICmd CDone); EThread 0 INone].
  eexists _, _, (EThread 0 INone), _, 0%nat, 1%nat, _.
  split; [vm_compute; reflexivity|]. split; [reflexivity|]. split; [cbn; intuition discriminate|].
  split; [vm_compute; reflexivity|]. split; [discriminate|]. split; [reflexivity|].
  split; [intros (X & _); discriminate|]. split; reflexivity.
Qed.
Print Assumptions C45_abandoned_port_refuted.

(** C45. A waiting port that was told everything and waits for others says so to its
    sender and looks again; if no other thread is running, it ends the transfer. *)
Theorem C45_keeps_waiting ports l s outs i t :
  rs_run (rsession_init ports) l = Some (Ret (s, outs)) -> served outs ->
  nth_error (rs_threads s) i = Some t -> rt_ph t = PSleep -> confirmed i outs = map snd (added outs) ->
  ((exists j u, j <> i /\ nth_error (rs_threads s) j = Some u /\ rt_st u = RRunning) ->
   exists s', rs_run s [EThread i INone; EThread i (IWrite true)] = Some (Ret (s', [OWait i])) /\
     nth_error (rs_threads s') i = Some (go t PCheck) /\
     forall k, k <> i -> nth_error (rs_threads s') k = nth_error (rs_threads s) k) /\
  ((forall j u, j <> i -> nth_error (rs_threads s) j = Some u -> rt_st u <> RRunning) -> rs_abort s = false ->
   exists s', rs_run s [EThread i INone; EThread i (IWrite true)] = Some (Ret (s', [OEnding i; ODone i]))).
Proof. exact (keeps_waiting ports l s outs i t). Qed.
Print Assumptions C45_keeps_waiting.
Example C45_keeps_waiting_nontrivial :
  exists s outs t, rs_run (rsession_init [11; 12])
    [EThread 0 (IListen true); EThread 1 (IListen true); EThread 0 IFirst; EThread 1 IFirstOther;
     EThread 0 (ICmd (CSettings 1000 false)); EThread 1 IAccept; EThread 0 (ICmd CDone);
     EThread 0 INone; EThread 0 INone] = Some (Ret (s, outs)) /\ served outs /\
    nth_error (rs_threads s) 0 = Some t /\ rt_ph t = PSleep /\ confirmed 0 outs = map snd (added outs) /\
    exists u, nth_error (rs_threads s) 1 = Some u /\ rt_st u = RRunning.
Proof. vm_compute. do 3 eexists. repeat split. eexists. repeat split. Qed.

(** C53. A port that meets a sender of another version accepts the next connection and
    gives it the port's checkpoint; after the other two mismatches the port has failed
    and the checkpoint goes to the other ports. *)
Theorem C53_mismatch s i t b : rs_abort s = false -> nth_error (rs_threads s) i = Some t -> rt_ph t = PRead ->
  (exists s' u, rs_run s [EThread i (ICmd (CSettingsAbort VERSION_MISMATCH)); EThread i (IWrite b); EThread i IAccept;
                          EThread i (IWrite true)] = Some (Ret (s', [OAccepted i; OLocal i (rt_ck t)])) /\
     nth_error (rs_threads s') i = Some u /\ rt_ph u = PRead /\ rt_err u = OK /\ rt_unver u = [] /\
     rs_ckpts s' = rs_ckpts s) /\
  forall e, e = VERSION_INCOMPATIBLE \/ e = ID_MISMATCH ->
   exists s' u, rs_run s [EThread i (ICmd (CSettingsAbort e)); EThread i (IWrite b); EThread i INone] =
      Some (Ret (s', [OAdded i (rt_ck t)])) /\
     nth_error (rs_threads s') i = Some u /\ rt_err u = e /\ rs_ckpts s' = rs_ckpts s ++ [rt_ck t].
Proof. exact (after_mismatch s i t b). Qed.
Print Assumptions C53_mismatch.
Example C53_mismatch_nontrivial :
  exists s outs t, rs_run (rsession_init [11]) [EThread 0 (IListen true); EThread 0 IFirst] = Some (Ret (s, outs)) /\
    rs_abort s = false /\ nth_error (rs_threads s) 0 = Some t /\ rt_ph t = PRead.
Proof. vm_compute. do 3 eexists. repeat split. Qed.
