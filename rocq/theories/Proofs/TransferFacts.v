From Verif Require Import Proofs.QueueMonitorFacts Proofs.HistoryFacts Proofs.RecvSessionFacts.
From Verif Require Export Proofs.TransferRecv.
From Coq Require Import Lia Permutation.

(** ** One step of the receiver, all ports *)

Definition recv_chan (P : tparams) (ch : chan) (up' : list upmsg) (o : list rout) : chan :=
  match ch_r ch with
  | Some c => {| ch_r := Some {| cn_up := up'; cn_down := cn_down c ++ answers P o |}; ch_new := ch_new ch |}
  | None => ch
  end.

Lemma recv_step_eq P w i ch a w' : recv_step P w i ch a = Some (Ret w') ->
  exists up' d r o, feed (tp_mode P) (rup ch) a = Some (up', d) /\ rs_step (w_r w) (EThread i a) = Some (Ret (r, o)) /\
    w' = with_recv (with_chan w i (recv_chan P ch up' o)) r d o.
Proof.
  unfold recv_step, recv_chan, rup. destruct (ch_r ch) as [c|]; cbn [cn_up conn_new].
  - destruct (feed _ _ a) as [[up' d]|]; [|discriminate].
    destruct (rs_step _ _) as [[[r o]| |]|]; try discriminate. intros E; injection E as <-. exists up', d, r, o. auto.
  - destruct (feed _ _ a) as [[up' d]|]; [|discriminate].
    destruct (rs_step _ _) as [[[r o]| |]|]; try discriminate. intros E; injection E as <-. exists up', d, r, o. auto.
Qed.

Lemma recv_chan_same P ch o : answers P o = [] -> recv_chan P ch (rup ch) o = ch.
Proof.
  intros E. unfold recv_chan, rup. rewrite E. destruct ch as [[[u dn]|] l]; cbn; [|reflexivity].
  rewrite app_nil_r. reflexivity.
Qed.
Lemma recv_chan_said P ch o m : answers P o = [m] -> said ch (recv_chan P ch (rup ch) o) m.
Proof.
  intros E. unfold said, recv_chan, rup. rewrite E. destruct ch as [[[u dn]|] l]; cbn.
  - split; [reflexivity|]. split; [reflexivity|]. right. repeat split; discriminate.
  - split; [reflexivity|]. split; [reflexivity|]. left; auto.
Qed.
Lemma recv_chan_taken P ch o x rest : answers P o = [] -> rup ch = x :: rest -> taken ch (recv_chan P ch rest o) rest.
Proof.
  intros E Eu. unfold taken, recv_chan, rup in *. rewrite E. destruct ch as [[[u dn]|] l]; cbn in *; [|discriminate].
  rewrite app_nil_r. repeat split; discriminate.
Qed.

Lemma put_ok P w hd last clean i p t H F ph ch t' ch' r d o :
  minv P w hd last clean -> at_port P w i p t H F ph ch ->
  rs_threads r = set_nth (rs_threads (w_r w)) i t' -> rs_ckpts r = rs_ckpts (w_r w) ->
  rs_abort r = rs_abort (w_r w) -> rs_gone r = rs_gone (w_r w) ->
  over (rt_ph t) = false -> over (rt_ph t') = false ->
  pinv P (w_disk w ++ d) (rs_ckpts (w_r w)) hd last clean i p t' H F ph ch' ->
  minv P (with_recv (with_chan w i ch') r d o) hd last clean.
Proof.
  intros M A E1 E2 E3 E4 O1 O2 Pi. pose proof A as (A1 & A2 & A3 & A4 & A5 & A6).
  eapply (minv_mk P w _ i p t H F ph ch t' H F ph ch' hd hd last last clean clean [] d); [exact M|exact A| | | | | | | | | | | | | | |].
  - split; [exact E1|]. cbn. split; [symmetry; apply set_nth_id, A3|]. split; [symmetry; apply set_nth_id, A4|].
    split; [symmetry; apply set_nth_id, A5|reflexivity].
  - cbn. rewrite E2, app_nil_r. reflexivity.
  - reflexivity.
  - cbn. rewrite E3. exact (mi_abort _ _ _ _ _ M).
  - cbn. rewrite E4, E1. pose proof (gones_set _ _ _ t' A2) as GS. rewrite (mi_gone _ _ _ _ _ M).
    assert (G1 : gone_b t = false) by (unfold gone_b; destruct (rt_ph t); cbn in *; congruence).
    assert (G2 : gone_b t' = false) by (unfold gone_b; destruct (rt_ph t'); cbn in *; congruence).
    rewrite G1, G2 in GS. lia.
  - apply incl_refl.
  - auto.
  - auto.
  - auto.
  - intros c [].
  - intros K; congruence.
  - cbn. rewrite E2. exact Pi.
  - cbn. apply oks_app. exact (mi_blocks _ _ _ _ _ M).
  - exact (mi_clean _ _ _ _ _ M).
  - exact (mi_ref _ _ _ _ _ M).
Qed.

Lemma running P d G hd last clean j p t H F ph ch : pinv P d G hd last clean j p t H F ph ch ->
  over (rt_ph t) = false -> waitp (rt_ph t) = false -> rt_st t = RRunning.
Proof.
  intros [] Ho Hw. destruct pi_st as (_ & K2 & K3). destruct (rt_st t); [reflexivity| |];
    [specialize (K3 eq_refl)|specialize (K2 eq_refl)]; congruence.
Qed.

Lemma drop_same P d G hd last clean j p t t' H F ph ch :
  pinv P d G hd last clean j p t H F ph ch -> over (rt_ph t) = false ->
  connected (rt_ph t') = false -> over (rt_ph t') = false -> fresh (rt_ph t') = false ->
  finishing (rt_ph t') = false -> rt_st t' = RRunning -> rt_ck t' = rt_ck t ->
  (rt_unver t' = rt_unver t \/ rt_unver t' = []) ->
  (rt_idx t' <= rt_idx t)%nat -> (rt_pend t' <= rt_pend t)%nat ->
  pinv P d G hd last clean j p t' H F ph ch.
Proof.
  intros X O1 C1 O2 F1 F2 Es Ec Eu Ei Ep. eapply drop_inv; try eassumption; rewrite ?Ec; try reflexivity;
    try (intros; reflexivity); destruct X; try assumption.
  - destruct (pi_ip O1). lia.
  - intros c I. apply (pi_idx O1). rewrite <- (Nat.min_l _ _ Ei), <- firstn_firstn in I. apply firstn_In in I. exact I.
Qed.

Lemma fresh_inv P d G hd last clean j p t H F ph ch :
  pinv P d G hd last clean j p t H F ph ch -> rt_ph t = PListen ->
  pinv P d G hd last clean j p (go t PFirst) H F ph ch.
Proof.
  intros [] Ep. rewrite Ep in *. constructor; cbn [go rt_ph rt_st rt_idx rt_pend rt_new rt_ck rt_unver];
    try assumption; try (intros; discriminate).
Qed.

Lemma reset_same P d G hd last clean j p t H F ph ch : pinv P d G hd last clean j p t H F ph ch ->
  fresh (rt_ph t) = true -> rt_ck (rt_reset t) = rt_ck t.
Proof.
  intros [] Fr. destruct (pi_fresh Fr) as (_ & K & _). cbn. rewrite K. reflexivity.
Qed.

(** ** The end *)

Lemma wr_delivered d h : wr d h -> okb d h -> delivered d (ident h).
Proof.
  unfold wr, okb, delivered, ident. intros W [E B]. split; [eexists; eexists; exact W|].
  intros x Hx. destruct (Z_lt_ge_dec x (s_offset (h_src h))) as [L|L]; [apply B; lia|].
  exists (s_offset (h_src h)), (s_size (h_src h)). split; [exact W|lia].
Qed.

Lemma not_running' l : forall i k (u : rthread), hasRunning l i = false -> k <> i -> nth_error l k = Some u -> rt_st u <> RRunning.
Proof.
  induction l as [|t l IH]; intros i k u E Hn Eu; [destruct k; discriminate|].
  destruct i as [|i], k as [|k]; cbn in *; try congruence.
  - intros K. apply nth_error_In in Eu. assert (X : existsb is_running l = true).
    { apply existsb_exists. exists u. split; [exact Eu|]. unfold is_running; rewrite K; reflexivity. }
    congruence.
  - injection Eu as ->. apply Bool.orb_false_iff in E as [E _]. unfold is_running in E. intros K; rewrite K in E; discriminate.
  - apply Bool.orb_false_iff in E as [_ E]. eapply IH; [exact E| |exact Eu]. congruence.
Qed.

Lemma ending_all P w hd last clean i p t H F ph ch : NoDup (tp_ports P) ->
  minv P w hd last clean -> at_port P w i p t H F ph ch -> waitp (rt_ph t) = true ->
  getNewCheckpoints (w_r w) (rt_idx t) = [] -> hasRunning (rs_threads (w_r w)) i = false ->
  w_init w = true /\ sn_queue (w_s w) = [] /\
  forall k pk tk Hk Fk phk chk, at_port P w k pk tk Hk Fk phk chk ->
    Fk = None /\ (length (hi_list Hk) <= cnt tk)%nat /\ Forall (wr (w_disk w)) (hi_list Hk).
Proof.
  intros Nd M A Wp En Hr.
  pose proof (mi_ports _ _ _ _ _ M _ _ _ _ _ _ _ A) as Pi.
  assert (Ov : over (rt_ph t) = false) by (destruct (rt_ph t); cbn in *; congruence).
  assert (AllG : forall c, In c (rs_ckpts (w_r w)) -> handled P hd c).
  { intros c I. apply (pi_idx _ _ _ _ _ _ _ _ _ _ _ _ _ Pi Ov). rewrite firstn_all2; [exact I|].
    unfold getNewCheckpoints in En. apply (f_equal (@length _)) in En. rewrite skipn_length in En. cbn in En. lia. }
  assert (Wt : forall k pk tk Hk Fk phk chk, at_port P w k pk tk Hk Fk phk chk ->
            waitp (rt_ph tk) = true \/ (over (rt_ph tk) = true /\ In k hd)).
  { intros k pk tk Hk Fk phk chk Ak. pose proof Ak as (K1 & K2 & _).
    pose proof (mi_ports _ _ _ _ _ M _ _ _ _ _ _ _ Ak) as Pk.
    destruct (Nat.eq_dec k i) as [-> | Hn].
    - left. destruct A as (_ & A2 & _). congruence.
    - pose proof (not_running' _ _ _ _ Hr Hn K2) as Nr. destruct (pi_st _ _ _ _ _ _ _ _ _ _ _ _ _ Pk) as (_ & S2 & S3).
      destruct (rt_st tk); [congruence|left; auto|right]. specialize (S2 eq_refl). split; [exact S2|].
      destruct (AllG _ (pi_G _ _ _ _ _ _ _ _ _ _ _ _ _ Pk S2)) as (k' & I & E).
      rewrite (pi_port _ _ _ _ _ _ _ _ _ _ _ _ _ Pk) in E.
      rewrite (nodup_nth _ _ _ _ Nd K1 E). exact I. }
  assert (Cl : exists j, clean j = true).
  { destruct last as [j|] eqn:El.
    - assert (L : (j < length (tp_ports P))%nat) by (apply (mi_last _ _ _ _ _ M); reflexivity).
      destruct (port_at _ _ _ _ _ _ M L) as (pj & tj & Hj & Fj & phj & chj & Aj & Pj).
      exists j. destruct (Wt _ _ _ _ _ _ _ Aj) as [K|[K1 K2]].
      + apply (pi_q _ _ _ _ _ _ _ _ _ _ _ _ _ Pj); auto.
      + apply Bool.not_false_is_true. intros K. exact (pi_lastq _ _ _ _ _ _ _ _ _ _ _ _ _ Pj eq_refl K K2).
    - exists i. apply (pi_q _ _ _ _ _ _ _ _ _ _ _ _ _ Pi); auto. }
  destruct Cl as [j Cl]. destruct (mi_clean _ _ _ _ _ M j Cl) as [Q1 Q2]. split; [exact Q2|]. split; [exact Q1|].
  intros k pk tk Hk Fk phk chk Ak. pose proof (mi_ports _ _ _ _ _ M _ _ _ _ _ _ _ Ak) as Pk.
  destruct (Wt _ _ _ _ _ _ _ Ak) as [K|[K1 K2]].
  - assert (Hh : held (rt_ph tk) = true) by (destruct (rt_ph tk); cbn in *; congruence).
    destruct (pi_wait _ _ _ _ _ _ _ _ _ _ _ _ _ Pk Hh) as (W1 & W2 & _).
    destruct (pi_r _ _ _ _ _ _ _ _ _ _ _ _ _ Pk (held_connected _ Hh)) as (_ & W3 & _).
    split; [exact W2|]. split; [lia|]. rewrite W1, firstn_all in W3. exact W3.
  - destruct (pi_hd _ _ _ _ _ _ _ _ _ _ _ _ _ Pk K2) as (W1 & W2 & W3).
    split; [apply (pi_fl _ _ _ _ _ _ _ _ _ _ _ _ _ Pk); congruence|]. split; [unfold cnt; lia|].
    pose proof (pi_wr _ _ _ _ _ _ _ _ _ _ _ _ _ Pk) as W. rewrite <- W3, firstn_all in W. exact W.
Qed.

Lemma all_delivered P w hd last clean : minv P w hd last clean -> sn_queue (w_s w) = [] ->
  (forall k pk tk Hk Fk phk chk, at_port P w k pk tk Hk Fk phk chk ->
    Fk = None /\ (length (hi_list Hk) <= cnt tk)%nat /\ Forall (wr (w_disk w)) (hi_list Hk)) ->
  forall x, In x (map ident (all_blocks (w_s w))) -> reported w x \/ delivered (w_disk w) x.
Proof.
  intros M Q Ws x I. apply in_map_iff in I as (h & <- & I). apply in_all in I.
  destruct (mi_len _ _ _ _ _ M) as (L1 & L2 & L3 & L4 & L5). pose proof (mi_blocks _ _ _ _ _ M) as (_ & _ & O3 & _).
  destruct I as [I|[I|[(hi & I1 & I2)|I]]].
  - rewrite Q in I; destruct I.
  - apply In_nth_error in I as [k Ek]. assert (Lk : (k < length (tp_ports P))%nat) by (rewrite <- L3; apply nth_error_Some; congruence).
    destruct (port_at _ _ _ _ _ _ M Lk) as (pk & tk & Hk & Fk & phk & chk & Ak & _).
    destruct (Ws _ _ _ _ _ _ _ Ak) as (W & _). destruct Ak as (_ & _ & _ & K4 & _). congruence.
  - apply In_nth_error in I1 as [k Ek]. assert (Lk : (k < length (tp_ports P))%nat) by (rewrite <- L2; apply nth_error_Some; congruence).
    destruct (port_at _ _ _ _ _ _ M Lk) as (pk & tk & Hk & Fk & phk & chk & Ak & _).
    destruct (Ws _ _ _ _ _ _ _ Ak) as (_ & _ & W). destruct Ak as (_ & _ & K3 & _).
    rewrite Ek in K3; injection K3 as <-. right. apply wr_delivered.
    + rewrite Forall_forall in W. auto.
    + pose proof (Forall_in_nth _ _ _ _ O3 Ek) as O. cbn beta in O. rewrite Forall_forall in O. auto.
  - left. apply in_map, I.
Qed.

(** ** The receiver's step *)

Lemma leave_ok P w hd last clean i p t H F ph ch u r o o' d ch' :
  minv P w hd last clean -> at_port P w i p t H F ph ch -> rt_ph t = PEnd -> u = t ->
  leave (w_r w) i u = (r, o) -> d = [] -> ch' = ch ->
  outcome_ok P (with_recv (with_chan w i ch') r d o') \/ dead (with_recv (with_chan w i ch') r d o').
Proof.
  intros M A Ep -> E -> ->. pose proof A as (A1 & A2 & A3 & A4 & A5 & A6).
  pose proof (mi_ports _ _ _ _ _ M _ _ _ _ _ _ _ A) as Pi.
  set (t' := go (mark t RFinished) PGone) in *.
  pose proof (gones_set _ _ _ t' A2) as GS. assert (G1 : gone_b t = false) by (unfold gone_b; rewrite Ep; reflexivity).
  rewrite G1 in GS. cbn [gone_b t' go mark rt_ph] in GS.
  unfold leave in E. cbn zeta in E. cbn [put rs_gone rs_threads rs_ckpts rs_started rs_abort rs_begun] in E. fold t' in E.
  rewrite set_nth_length in E.
  destruct (Nat.eqb_spec (S (rs_gone (w_r w))) (length (rs_threads (w_r w)))) as [El|El]; injection E as <- <-.
  - right.
    assert (Et : rs_threads (endCurGlobalSession {| rs_ckpts := rs_ckpts (w_r w); rs_threads := set_nth (rs_threads (w_r w)) i t';
         rs_started := rs_started (w_r w); rs_abort := rs_abort (w_r w); rs_begun := rs_begun (w_r w); rs_gone := S (rs_gone (w_r w)) |}) = set_nth (rs_threads (w_r w)) i t').
    { unfold endCurGlobalSession; cbn. destruct (rs_started (w_r w)); reflexivity. }
    destruct (mi_len _ _ _ _ _ M) as (L1 & L2 & L3 & L4 & L5).
    unfold dead. cbn [w_r with_recv with_chan w_chan w_sph]. rewrite Et. split; [|split].
    + intros x I. apply In_nth_error in I as [k Ek]. destruct (rt_ph x) eqn:Ex; try reflexivity; exfalso;
        (assert (Lv : (gones (set_nth (rs_threads (w_r w)) i t') < length (set_nth (rs_threads (w_r w)) i t'))%nat)
           by (eapply gones_live; [exact Ek|congruence]);
         rewrite set_nth_length in Lv; rewrite (mi_gone _ _ _ _ _ M) in El; lia).
    + rewrite (set_nth_id _ _ _ A6). intros c I. apply In_nth_error in I as [k Ek].
      assert (Lk : (k < length (tp_ports P))%nat) by (rewrite <- L5; apply nth_error_Some; congruence).
      destruct (port_at _ _ _ _ _ _ M Lk) as (pk & tk & Hk & Fk & phk & chk & Ak & Pk).
      destruct Ak as (_ & _ & _ & _ & _ & K6). rewrite Ek in K6; injection K6 as <-. exact (pi_done _ _ _ _ _ _ _ _ _ _ _ _ _ Pk).
    + intros c I. apply In_nth_error in I as [k Ek].
      assert (Lk : (k < length (tp_ports P))%nat) by (rewrite <- L4; apply nth_error_Some; congruence).
      destruct (port_at _ _ _ _ _ _ M Lk) as (pk & tk & Hk & Fk & phk & chk & Ak & Pk).
      destruct Ak as (_ & _ & _ & _ & K5 & _). rewrite Ek in K5; injection K5 as <-. exact (pi_ph _ _ _ _ _ _ _ _ _ _ _ _ _ Pk).
  - left. right. exists hd, last, clean.
    eapply (minv_mk P w _ i p t H F ph ch t' H F ph ch hd hd last last clean clean [] []); [exact M|exact A| | | | | | | | | | | | | | |].
    + split; [reflexivity|]. cbn. split; [symmetry; apply set_nth_id, A3|]. split; [symmetry; apply set_nth_id, A4|].
      split; [symmetry; apply set_nth_id, A5|reflexivity].
    + cbn. rewrite app_nil_r; reflexivity.
    + cbn. reflexivity.
    + exact (mi_abort _ _ _ _ _ M).
    + cbn. rewrite (mi_gone _ _ _ _ _ M). lia.
    + apply incl_refl.
    + auto.
    + auto.
    + auto.
    + intros c [].
    + intros _. split; reflexivity.
    + cbn. rewrite app_nil_r. eapply end_inv; [exact Pi|rewrite Ep; reflexivity|reflexivity..|].
      apply (pi_G _ _ _ _ _ _ _ _ _ _ _ _ _ Pi). rewrite Ep; reflexivity.
    + cbn. rewrite app_nil_r. exact (mi_blocks _ _ _ _ _ M).
    + exact (mi_clean _ _ _ _ _ M).
    + exact (mi_ref _ _ _ _ _ M).
Qed.

Lemma publish_ok P w hd last clean i p t H F ph ch o :
  minv P w hd last clean -> at_port P w i p t H F ph ch -> rt_ph t = PFinish ->
  outcome_ok P (with_recv (with_chan w i ch)
    (put (addCheckpoint (w_r w) (rt_ck t)) i (go (mark t RFinished) PEnd)) [] o).
Proof.
  intros M A Ep. pose proof A as (A1 & A2 & A3 & A4 & A5 & A6).
  pose proof (mi_ports _ _ _ _ _ M _ _ _ _ _ _ _ A) as Pi.
  set (t' := go (mark t RFinished) PEnd).
  pose proof (gones_set _ _ _ t' A2) as GS. assert (G1 : gone_b t = false) by (unfold gone_b; rewrite Ep; reflexivity).
  rewrite G1 in GS. cbn [gone_b t' go mark rt_ph] in GS.
  right. exists hd, last, clean.
  eapply (minv_mk P w _ i p t H F ph ch t' H F ph ch hd hd last last clean clean [rt_ck t] []); [exact M|exact A| | | | | | | | | | | | | | |].
  - split; [reflexivity|]. cbn. split; [symmetry; apply set_nth_id, A3|]. split; [symmetry; apply set_nth_id, A4|].
    split; [symmetry; apply set_nth_id, A5|reflexivity].
  - reflexivity.
  - reflexivity.
  - exact (mi_abort _ _ _ _ _ M).
  - cbn. rewrite (mi_gone _ _ _ _ _ M). lia.
  - apply incl_refl.
  - auto.
  - auto.
  - auto.
  - intros c [<-|[]]. split; reflexivity.
  - rewrite Ep. discriminate.
  - cbn. rewrite app_nil_r. eapply end_inv; [apply pinv_G, Pi|rewrite Ep; reflexivity|reflexivity..|].
    apply in_or_app; right; left; reflexivity.
  - cbn. rewrite app_nil_r. exact (mi_blocks _ _ _ _ _ M).
  - exact (mi_clean _ _ _ _ _ M).
  - exact (mi_ref _ _ _ _ _ M).
Qed.

Lemma pinv_nil P d G hd last clean j p t H F ph ch :
  pinv P d G hd last clean j p t H F ph ch -> pinv P (d ++ []) G hd last clean j p t H F ph ch.
Proof. rewrite app_nil_r. auto. Qed.

Lemma step_split s i a s' o t : rs_step s (EThread i a) = Some (Ret (s', o)) -> nth_error (rs_threads s) i = Some t ->
  rs_abort s = false ->
  (rt_ph t = PEnd /\ leave s i t = (s', o)) \/ (rt_ph t <> PEnd /\ rt_ph t <> PGone /\ stateStep s i t a = Some (Ret (s', o))).
Proof.
  cbn [rs_step]. unfold threadStep. intros E Et Ab. rewrite Et, Ab in E. cbn [andb] in E.
  destruct (rt_ph t) eqn:Ep; try discriminate E; try (right; repeat split; [discriminate|discriminate|exact E]).
  left. split; [reflexivity|]. exact (f_equal (fun x => match x with Some (Ret y) => y | _ => (s', o) end) E).
Qed.

Lemma broken_inv P d G hd last clean j p t t' H F ph ch m rest s o k credit :
  pinv P d G hd last clean j p t H F ph ch -> rt_ph t = PRead -> rup ch = m :: rest -> 0 <= k ->
  (tp_mode P = Plain \/ credit = false) ->
  connected (rt_ph t') = false -> over (rt_ph t') = false -> fresh (rt_ph t') = false ->
  finishing (rt_ph t') = false -> rt_st t' = RRunning ->
  rt_ck t' = (if credit : bool then ck_last (ck_last (rt_ck t) 0 0 0) s o k else ck_last (rt_ck t) 0 0 0) ->
  rt_unver t' = rt_unver t -> (rt_idx t' <= rt_pend t \/ rt_idx t' <= rt_idx t)%nat -> (rt_pend t' <= rt_pend t)%nat ->
  pinv P (d ++ (if 0 <? k then [(s, o, k)] else [])) G hd last clean j p t' H F ph ch.
Proof.
  intros X Ep Eu Hk Cr C1 O1 F1 F2 Es Ec Ev Ei Ee.
  destruct (head_facts _ _ _ _ _ _ _ _ _ _ _ _ _ _ _ X Ep Eu) as (H1 & _).
  assert (Ov : over (rt_ph t) = false) by (rewrite Ep; reflexivity).
  apply (pinv_disk _ _ (if 0 <? k then [(s, o, k)] else [])) in X.
  pose proof (pi_port _ _ _ _ _ _ _ _ _ _ _ _ _ X) as Pp.
  pose proof (pi_ip _ _ _ _ _ _ _ _ _ _ _ _ _ X Ov) as [Pd Pe].
  pose proof (pi_idx _ _ _ _ _ _ _ _ _ _ _ _ _ X Ov) as H0.
  eapply drop_inv; try eassumption.
  - rewrite Ec. destruct credit; exact Pp.
  - rewrite Ec. destruct credit; reflexivity.
  - congruence.
  - auto.
  - rewrite Ec. destruct credit; cbn; [|split; [lia|intros; lia]]. split; [exact Hk|]. intros x Hx.
    exists o, k. split; [|lia]. apply in_or_app; right. destruct (Z.ltb_spec 0 k); [left; reflexivity|lia].
  - intros Np. rewrite Ec. destruct Cr as [K|K]; [congruence|]. rewrite K. reflexivity.
  - split; lia.
  - intros c I. destruct Ei as [Ei|Ei]; [apply H1|apply H0]; rewrite <- (Nat.min_l _ _ Ei), <- firstn_firstn in I; apply firstn_In in I; exact I.
Qed.

Definition allrecv (w : world) : Prop :=
  forall h, In h (all_blocks (w_s w)) -> In h (sn_failed (w_s w)) \/ exists k, received_by w k h.

Definition ending (w : world) : Prop := final w /\ allrecv w /\ exists j, In (OEnding j) (w_outs w).

Definition recv_result (P : tparams) (w : world) : Prop := outcome_ok P w \/ ending w \/ dead w.

Lemma ending_ok P w hd last clean i p t H F ph ch t' : NoDup (tp_ports P) ->
  minv P w hd last clean -> at_port P w i p t H F ph ch -> waitp (rt_ph t) = true ->
  getNewCheckpoints (w_r w) (rt_idx t) = [] -> hasRunning (rs_threads (w_r w)) i = false ->
  rt_ck t' = rt_ck t -> rt_unver t' = rt_unver t ->
  ending (with_recv (with_chan w i ch) (put (w_r w) i t') [] [OEnding i]).
Proof.
  intros Nd M A Wp En Hr Ec Eu.
  destruct (ending_all _ _ _ _ _ _ _ _ _ _ _ _ Nd M A Wp En Hr) as (Q1 & Q2 & Q3).
  destruct (mi_len _ _ _ _ _ M) as (L1 & L2 & L3 & L4 & L5). pose proof A as (_ & A2 & _).
  split; [split; [exact Q1|]|split].
  - cbn. rewrite app_nil_r. intros x I. destruct (all_delivered _ _ _ _ _ M Q2 Q3 x I) as [K|K]; [left|right]; exact K.
  - intros h I. cbn in I |- *. apply in_all in I. destruct I as [I|[I|[(hi & I1 & I2)|I]]].
    + rewrite Q2 in I; destruct I.
    + apply In_nth_error in I as [k Ek]. assert (Lk : (k < length (tp_ports P))%nat) by (rewrite <- L3; apply nth_error_Some; congruence).
      destruct (port_at _ _ _ _ _ _ M Lk) as (pk & tk & Hk & Fk & phk & chk & Ak & _).
      destruct (Q3 _ _ _ _ _ _ _ Ak) as (W & _). destruct Ak as (_ & _ & _ & K4 & _). congruence.
    + right. apply In_nth_error in I1 as [k Ek]. exists k. assert (Lk : (k < length (tp_ports P))%nat) by (rewrite <- L2; apply nth_error_Some; congruence).
      destruct (port_at _ _ _ _ _ _ M Lk) as (pk & tk & Hk & Fk & phk & chk & Ak & Pk).
      destruct (Q3 _ _ _ _ _ _ _ Ak) as (_ & W & _). pose proof Ak as (_ & K2 & K3 & _).
      rewrite Ek in K3; injection K3 as <-. apply In_nth_error in I2 as [m Em].
      assert (Lm : (m < length (hi_list hi))%nat) by (apply nth_error_Some; congruence).
      pose proof (pi_n0 _ _ _ _ _ _ _ _ _ _ _ _ _ Pk) as N0.
      assert (Wm : Z.of_nat m < ck_numBlocks (rt_ck tk) + zlen (rt_unver tk)) by (unfold cnt, nb, zlen in *; lia).
      destruct (Nat.eq_dec k i) as [-> | Hn].
      * exists hi, t', m. cbn. split; [exact Ek|]. split; [eapply nth_set_same; exact A2|]. split; [exact Em|].
        assert (tk = t) by congruence. subst tk. rewrite Ec, Eu. exact Wm.
      * exists hi, tk, m. cbn. split; [exact Ek|]. split; [rewrite nth_set_other; [exact K2|congruence]|]. split; [exact Em|exact Wm].
    + left; exact I.
  - exists i. cbn. apply in_or_app; right; left; reflexivity.
Qed.

Lemma recv_ok P w hd last clean i p t H F ph ch a w' :
  NoDup (tp_ports P) -> minv P w hd last clean -> at_port P w i p t H F ph ch ->
  hears w i a = true -> (forall e, a <> INonRetryable e) ->
  recv_step P w i ch a = Some (Ret w') -> recv_result P w'.
Proof.
  intros Nd M A Hr Na E.
  pose proof (mi_ports _ _ _ _ _ M _ _ _ _ _ _ _ A) as Pi.
  destruct (recv_step_eq _ _ _ _ _ _ E) as (up' & d & r & o & Ef & Es & Ew). clear E.
  pose proof A as (A1 & A2 & A3 & A4 & A5 & A6).
  pose proof (mi_abort _ _ _ _ _ M) as Ab.
  assert (Keep : forall t' ch' r' d' o', rs_threads r' = set_nth (rs_threads (w_r w)) i t' ->
     rs_ckpts r' = rs_ckpts (w_r w) -> rs_abort r' = rs_abort (w_r w) -> rs_gone r' = rs_gone (w_r w) ->
     over (rt_ph t) = false -> over (rt_ph t') = false ->
     pinv P (w_disk w ++ d') (rs_ckpts (w_r w)) hd last clean i p t' H F ph ch' ->
     recv_result P (with_recv (with_chan w i ch') r' d' o')).
  { intros. left; right. exists hd, last, clean. eapply put_ok; eassumption. }
  unfold hears in Hr. rewrite A2 in Hr.
  apply (step_split _ _ _ _ _ t) in Es as [[Pe Es]|(Pe & Pg & Es)]; [| |exact A2|exact Ab].
  { rewrite Pe in Hr.
    assert (Eq : up' = rup ch /\ d = []).
    { destruct a as [[]| | | | | | |[]|[]| | | |]; cbn in Ef, Hr; try discriminate Hr; try discriminate Ef; injection Ef as <- <-; auto. }
    destruct Eq as [-> ->]. subst w'.
    assert (Eo : answers P o = []) by (unfold leave in Es; injection Es as _ <-; reflexivity).
    rewrite (recv_chan_same _ _ _ Eo).
    destruct (leave_ok _ _ _ _ _ _ _ _ _ _ _ _ _ _ _ o [] ch M A Pe eq_refl Es eq_refl eq_refl) as [K|K]; [left; exact K|right; right; exact K]. }
  state_cases Es.
  all: try (cbn [feed] in Ef; discriminate Ef).
  all: try (cbn [feed] in Ef; injection Ef as <- <-).
  all: subst w'.
  all: try (cbn [feed] in Ef; injection Ef as <- <-).
  all: try (rewrite recv_chan_same by reflexivity).
  all: assert (Kt := running _ _ _ _ _ _ _ _ _ _ _ _ _ Pi).
  all: match goal with E : rt_ph _ = _ |- _ => rename E into Ph end.
  all: try (eapply Keep; [reflexivity..|]; apply pinv_nil;
            eapply drop_same; [exact Pi|rewrite Ph; reflexivity|reflexivity..| | | | |]; cbn;
            [try reflexivity; apply Kt; rewrite Ph; reflexivity|
             try reflexivity; apply (reset_same _ _ _ _ _ _ _ _ _ _ _ _ _ Pi); rewrite Ph; reflexivity|auto|lia|lia]; fail).
  all: try (eapply Keep; [reflexivity..|]; apply pinv_nil;
            eapply stay_inv; [exact Pi|rewrite Ph; reflexivity|try reflexivity; rewrite Ph; reflexivity|reflexivity..| | | | | | | |]; 
            cbn; try lia; auto; fail).
  - (* listening *)
    eapply Keep; [reflexivity..|first [reflexivity|cbn; rewrite Ph; reflexivity]|]. apply pinv_nil. apply fresh_inv; assumption.
  - exfalso. eapply Na; reflexivity.
  - (* the local checkpoint *)
    eapply Keep; [reflexivity..|first [reflexivity|cbn; rewrite Ph; reflexivity]|]. apply pinv_nil. eapply say_local_inv; [exact Pi|exact Ph|reflexivity|].
    apply recv_chan_said. reflexivity.
  - eapply Keep; [reflexivity..|first [reflexivity|cbn; rewrite Ph; reflexivity]|]. apply pinv_nil. eapply stay_inv; [exact Pi|rewrite Ph; reflexivity|first [reflexivity|cbn; rewrite Ph; reflexivity]|reflexivity..| | | | | | | |]; cbn; auto; unfold nb; cbn; try lia; apply (pi_n0 _ _ _ _ _ _ _ _ _ _ _ _ _ Pi).
  - eapply Keep; [reflexivity..|first [reflexivity|cbn; rewrite Ph; reflexivity]|]. apply pinv_nil. eapply stay_inv; [exact Pi|rewrite Ph; reflexivity|first [reflexivity|cbn; rewrite Ph; reflexivity]|reflexivity..| | | | | | | |]; cbn; auto; unfold nb; cbn; try lia; apply (pi_n0 _ _ _ _ _ _ _ _ _ _ _ _ _ Pi).
  - eapply Keep; [reflexivity..|first [reflexivity|cbn; rewrite Ph; reflexivity]|]. apply pinv_nil. eapply stay_inv; [exact Pi|rewrite Ph; reflexivity|first [reflexivity|cbn; rewrite Ph; reflexivity]|reflexivity..| | | | | | | |]; cbn; auto; unfold nb; cbn; try lia; apply (pi_n0 _ _ _ _ _ _ _ _ _ _ _ _ _ Pi).
  - cbn [feed] in Ef. destruct (rup ch) as [|[ss oo nn|ss oo kk nn|] rest] eqn:Eu; try discriminate Ef; injection Ef as <- <-; rewrite <- Eu, recv_chan_same by reflexivity;
      (eapply Keep; [reflexivity..|first [reflexivity|cbn; rewrite Ph; reflexivity]|]; apply (broken_inv _ _ _ _ _ _ _ _ t _ _ _ _ _ _ _ 0 0 0 false Pi Ph Eu);
       [lia|auto|reflexivity..| | | | |]; cbn; try reflexivity; [apply Kt; rewrite Ph; reflexivity|lia]).
  - cbn [feed] in Ef. destruct (rup ch) as [|[ss oo nn|ss oo kk nn|] rest] eqn:Eu; try discriminate Ef; injection Ef as <- <-; rewrite <- Eu, recv_chan_same by reflexivity;
      (eapply Keep; [reflexivity..|first [reflexivity|cbn; rewrite Ph; reflexivity]|]; apply (broken_inv _ _ _ _ _ _ _ _ t _ _ _ _ _ _ _ 0 0 0 false Pi Ph Eu);
       [lia|auto|reflexivity..| | | | |]; cbn; try reflexivity; [apply Kt; rewrite Ph; reflexivity|lia]).
  - cbn [feed] in Ef. destruct (rup ch) as [|[ss oo nn|ss oo kk nn|] rest] eqn:Eu; try discriminate Ef.
    destruct (_ && _) eqn:Eb in Ef; [|discriminate Ef]. injection Ef as <- <-.
    eapply Keep; [reflexivity..|first [reflexivity|cbn; rewrite Ph; reflexivity]|]. eapply file_inv; [exact Pi|exact Ph|exact Eu|eapply recv_chan_taken; [reflexivity|exact Eu]|..]; cbn; try reflexivity; try exact Ph; try lia.
    { unfold cnt, nb; cbn. pose proof (pi_n0 _ _ _ _ _ _ _ _ _ _ _ _ _ Pi). rewrite ?app_length; cbn; lia. }
  - cbn [feed] in Ef. destruct (rup ch) as [|[ss oo nn|ss oo kk nn|] rest] eqn:Eu; try discriminate Ef.
    destruct (_ && _) eqn:Eb in Ef; [|discriminate Ef]. injection Ef as <- <-.
    eapply Keep; [reflexivity..|first [reflexivity|cbn; rewrite Ph; reflexivity]|]. eapply file_inv; [exact Pi|exact Ph|exact Eu|eapply recv_chan_taken; [reflexivity|exact Eu]|..]; cbn; try reflexivity; try exact Ph; try lia.
    { unfold cnt, nb; cbn. pose proof (pi_n0 _ _ _ _ _ _ _ _ _ _ _ _ _ Pi). rewrite ?app_length; cbn; lia. }
  - cbn [feed] in Ef. destruct (rup ch) as [|[ss oo nn|ss oo kk nn|] rest] eqn:Eu; try discriminate Ef;
      match type of Ef with (if ?b then _ else _) = _ => destruct b eqn:Ebb; [|discriminate Ef] end; injection Ef as <- <-; rewrite <- Eu, recv_chan_same by reflexivity;
      apply Bool.andb_true_iff in Ebb as [Ebb E5]; apply Bool.andb_true_iff in Ebb as [Ebb E4];
      apply Bool.andb_true_iff in Ebb as [Ebb E3]; apply Bool.andb_true_iff in Ebb as [E1 E2];
      apply Z.eqb_eq in E1, E2; apply Z.leb_le in E3; apply Bool.eqb_prop in E5; subst ss oo;
      (eapply Keep; [reflexivity..|first [reflexivity|cbn; rewrite Ph; reflexivity]|]; apply (broken_inv _ _ _ _ _ _ _ _ t _ _ _ _ _ _ _ seq off bytes true Pi Ph Eu);
       [exact E3|unfold is_plain in E5; destruct (tp_mode P); auto; discriminate E5|reflexivity..| | | | |]; cbn; try reflexivity; [apply Kt; rewrite Ph; reflexivity|lia]).
  - cbn [feed] in Ef. destruct (rup ch) as [|[ss oo nn|ss oo kk nn|] rest] eqn:Eu; try discriminate Ef;
      match type of Ef with (if ?b then _ else _) = _ => destruct b eqn:Ebb; [|discriminate Ef] end; injection Ef as <- <-; rewrite <- Eu, recv_chan_same by reflexivity;
      apply Bool.andb_true_iff in Ebb as [Ebb E5]; apply Bool.andb_true_iff in Ebb as [Ebb E4];
      apply Bool.andb_true_iff in Ebb as [Ebb E3]; apply Bool.andb_true_iff in Ebb as [E1 E2];
      apply Z.eqb_eq in E1, E2; apply Z.leb_le in E3; apply Bool.eqb_prop in E5; subst ss oo;
      (eapply Keep; [reflexivity..|first [reflexivity|cbn; rewrite Ph; reflexivity]|]; apply (broken_inv _ _ _ _ _ _ _ _ t _ _ _ _ _ _ _ seq off bytes false Pi Ph Eu);
       [exact E3|unfold is_plain in E5; destruct (tp_mode P); auto; discriminate E5|reflexivity..| | | | |]; cbn; try reflexivity; [apply Kt; rewrite Ph; reflexivity|lia]).
  - cbn [feed] in Ef. destruct (rup ch) as [|[ss oo nn|ss oo kk nn|] rest] eqn:Eu; try discriminate Ef;
      match type of Ef with (if ?b then _ else _) = _ => destruct b eqn:Ebb; [|discriminate Ef] end; injection Ef as <- <-; rewrite <- Eu, recv_chan_same by reflexivity;
      apply Bool.andb_true_iff in Ebb as [Ebb E5]; apply Bool.andb_true_iff in Ebb as [Ebb E4];
      apply Bool.andb_true_iff in Ebb as [Ebb E3]; apply Bool.andb_true_iff in Ebb as [E1 E2];
      apply Z.eqb_eq in E1, E2; apply Z.leb_le in E3; apply Bool.eqb_prop in E5; subst ss oo;
      (eapply Keep; [reflexivity..|first [reflexivity|cbn; rewrite Ph; reflexivity]|]; apply (broken_inv _ _ _ _ _ _ _ _ t _ _ _ _ _ _ _ seq off bytes true Pi Ph Eu);
       [exact E3|unfold is_plain in E5; destruct (tp_mode P); auto; discriminate E5|reflexivity..| | | | |]; cbn; try reflexivity; [apply Kt; rewrite Ph; reflexivity|lia]).
  - cbn [feed] in Ef. destruct (rup ch) as [|[ss oo nn|ss oo kk nn|] rest] eqn:Eu; try discriminate Ef;
      match type of Ef with (if ?b then _ else _) = _ => destruct b eqn:Ebb; [|discriminate Ef] end; injection Ef as <- <-; rewrite <- Eu, recv_chan_same by reflexivity;
      apply Bool.andb_true_iff in Ebb as [Ebb E5]; apply Bool.andb_true_iff in Ebb as [Ebb E4];
      apply Bool.andb_true_iff in Ebb as [Ebb E3]; apply Bool.andb_true_iff in Ebb as [E1 E2];
      apply Z.eqb_eq in E1, E2; apply Z.leb_le in E3; apply Bool.eqb_prop in E5; subst ss oo;
      (eapply Keep; [reflexivity..|first [reflexivity|cbn; rewrite Ph; reflexivity]|]; apply (broken_inv _ _ _ _ _ _ _ _ t _ _ _ _ _ _ _ seq off bytes false Pi Ph Eu);
       [exact E3|unfold is_plain in E5; destruct (tp_mode P); auto; discriminate E5|reflexivity..| | | | |]; cbn; try reflexivity; [apply Kt; rewrite Ph; reflexivity|lia]).
  - cbn [feed] in Ef. destruct (rup ch) as [|[ss oo nn|ss oo kk nn|] rest] eqn:Eu; try discriminate Ef;
      match type of Ef with (if ?b then _ else _) = _ => destruct b eqn:Ebb; [|discriminate Ef] end; injection Ef as <- <-; rewrite <- Eu, recv_chan_same by reflexivity;
      apply Bool.andb_true_iff in Ebb as [Ebb E5]; apply Bool.andb_true_iff in Ebb as [Ebb E4];
      apply Bool.andb_true_iff in Ebb as [Ebb E3]; apply Bool.andb_true_iff in Ebb as [E1 E2];
      apply Z.eqb_eq in E1, E2; apply Z.leb_le in E3; apply Bool.eqb_prop in E5; subst ss oo;
      (eapply Keep; [reflexivity..|first [reflexivity|cbn; rewrite Ph; reflexivity]|]; apply (broken_inv _ _ _ _ _ _ _ _ t _ _ _ _ _ _ _ seq off bytes true Pi Ph Eu);
       [exact E3|unfold is_plain in E5; destruct (tp_mode P); auto; discriminate E5|reflexivity..| | | | |]; cbn; try reflexivity; [apply Kt; rewrite Ph; reflexivity|lia]).
  - cbn [feed] in Ef. destruct (rup ch) as [|[ss oo nn|ss oo kk nn|] rest] eqn:Eu; try discriminate Ef;
      match type of Ef with (if ?b then _ else _) = _ => destruct b eqn:Ebb; [|discriminate Ef] end; injection Ef as <- <-; rewrite <- Eu, recv_chan_same by reflexivity;
      apply Bool.andb_true_iff in Ebb as [Ebb E5]; apply Bool.andb_true_iff in Ebb as [Ebb E4];
      apply Bool.andb_true_iff in Ebb as [Ebb E3]; apply Bool.andb_true_iff in Ebb as [E1 E2];
      apply Z.eqb_eq in E1, E2; apply Z.leb_le in E3; apply Bool.eqb_prop in E5; subst ss oo;
      (eapply Keep; [reflexivity..|first [reflexivity|cbn; rewrite Ph; reflexivity]|]; apply (broken_inv _ _ _ _ _ _ _ _ t _ _ _ _ _ _ _ seq off bytes false Pi Ph Eu);
       [exact E3|unfold is_plain in E5; destruct (tp_mode P); auto; discriminate E5|reflexivity..| | | | |]; cbn; try reflexivity; [apply Kt; rewrite Ph; reflexivity|lia]).
  - cbn [feed] in Ef. destruct (rup ch) as [|[ss oo nn|ss oo kk nn|] rest] eqn:Eu; try discriminate Ef. injection Ef as <- <-.
    eapply Keep; [reflexivity..|first [reflexivity|cbn; rewrite Ph; reflexivity]|]. apply pinv_nil. eapply done_cmd_inv; [exact Pi|exact Ph|exact Eu|eapply recv_chan_taken; [reflexivity|exact Eu]|reflexivity].
  - cbn [feed] in Ef. destruct (is_tagged (tp_mode P)); [|discriminate Ef]. injection Ef as <- <-. rewrite recv_chan_same by reflexivity.
    pose proof (pi_n0 _ _ _ _ _ _ _ _ _ _ _ _ _ Pi).
    eapply Keep; [reflexivity..|first [reflexivity|cbn; rewrite Ph; reflexivity]|]. apply pinv_nil. eapply stay_inv; [exact Pi|rewrite Ph; reflexivity|first [reflexivity|cbn; rewrite Ph; reflexivity]|reflexivity..| | | | | | | |]; cbn; unfold nb, cnt, nb; cbn; unfold zlen; try reflexivity; try lia.
    intros Ev. rewrite Ev. split; [|reflexivity]. destruct (rt_ck t); unfold ck_incr; cbn. f_equal. lia.
  - eapply Keep; [reflexivity..|first [reflexivity|cbn; rewrite Ph; reflexivity]|]. apply pinv_nil. eapply stay_inv; [exact Pi|rewrite Ph; reflexivity|first [reflexivity|cbn; rewrite Ph; reflexivity]|reflexivity..| | | | | | | |]; cbn; auto; unfold nb; cbn; try lia; apply (pi_n0 _ _ _ _ _ _ _ _ _ _ _ _ _ Pi).
  - (* telling *)
    eapply Keep; [reflexivity..|first [reflexivity|cbn; rewrite Ph; reflexivity]|]. apply pinv_nil. eapply tell_inv; [exact Pi|exact Ph|]. apply recv_chan_said. reflexivity.
  - eapply Keep; [reflexivity..|first [reflexivity|cbn; rewrite Ph; reflexivity]|]. apply pinv_nil. eapply wait_inv; try exact Pi; try reflexivity; [rewrite Ph; reflexivity|discriminate].
  - eapply Keep; [reflexivity..|first [reflexivity|cbn; rewrite Ph; reflexivity]|]. apply pinv_nil. eapply wait_inv; [exact Pi|rewrite Ph; reflexivity|reflexivity| |reflexivity..].
    cbn. intros K. destruct (pi_st _ _ _ _ _ _ _ _ _ _ _ _ _ Pi) as (_ & K2 & _). specialize (K2 K). rewrite Ph in K2. discriminate K2.
  - right; left. eapply ending_ok; try eassumption; try reflexivity. rewrite Ph; reflexivity.
  - eapply Keep; [reflexivity..|first [reflexivity|cbn; rewrite Ph; reflexivity]|]. apply pinv_nil. eapply found_inv; [exact Pi|rewrite Ph; reflexivity|exact Gn].
  - eapply Keep; [reflexivity..|first [reflexivity|cbn; rewrite Ph; reflexivity]|]. apply pinv_nil. eapply wait_inv; [exact Pi|rewrite Ph; reflexivity|reflexivity| |reflexivity..].
    cbn. intros K. destruct (pi_st _ _ _ _ _ _ _ _ _ _ _ _ _ Pi) as (_ & K2 & _). specialize (K2 K). rewrite Ph in K2. discriminate K2.
  - right; left. eapply ending_ok; try eassumption; try reflexivity. rewrite Ph; reflexivity.
  - eapply Keep; [reflexivity..|first [reflexivity|cbn; rewrite Ph; reflexivity]|]. apply pinv_nil. eapply found_inv; [exact Pi|rewrite Ph; reflexivity|exact Gn].
  - eapply Keep; [reflexivity..|first [reflexivity|cbn; rewrite Ph; reflexivity]|]. apply pinv_nil. eapply wait_inv; [|rewrite Ph; reflexivity|reflexivity| |reflexivity..].
    + eapply say_wait_inv; [exact Pi|rewrite Ph; reflexivity|apply recv_chan_said; reflexivity].
    + cbn. intros K. destruct (pi_st _ _ _ _ _ _ _ _ _ _ _ _ _ Pi) as (_ & K2 & _). specialize (K2 K). rewrite Ph in K2. discriminate K2.
  - exfalso. destruct (pi_st _ _ _ _ _ _ _ _ _ _ _ _ _ Pi) as (K & _). rewrite Ph in K. discriminate K.
  - exfalso. destruct (pi_st _ _ _ _ _ _ _ _ _ _ _ _ _ Pi) as (K & _). rewrite Ph in K. discriminate K.
  - left. eapply publish_ok; eassumption.
Qed.

(** ** Accepting *)

Lemma accept_ok P w hd last clean i p t H F ph ch m a w' :
  minv P w hd last clean -> at_port P w i p t H F ph ch -> hears w i a = true ->
  accept_step w i m ch a = Some (Ret w') -> outcome_ok P w'.
Proof.
  intros M A Hr E. pose proof (mi_ports _ _ _ _ _ M _ _ _ _ _ _ _ A) as Pi.
  pose proof A as (A1 & A2 & A3 & A4 & A5 & A6). pose proof (mi_abort _ _ _ _ _ M) as Ab.
  unfold hears in Hr. rewrite A2 in Hr. unfold accept_step in E.
  destruct a; try discriminate E; destruct (skipn m (ch_new ch)) as [|c l] eqn:Sk; try discriminate E;
    destruct (rs_step _ _) as [[[r o]| |]|] eqn:Es; try discriminate E; injection E as <-;
    apply (step_split _ _ _ _ _ t) in Es as [[Pe _]|(_ & _ & Es)]; try assumption;
    try (rewrite Pe in Hr; discriminate Hr).
  all: unfold stateStep in Es; destruct (rt_ph t) eqn:Ph; try discriminate Es; try discriminate Hr; injection Es as <- <-.
  all: right; exists hd, last, clean; eapply put_ok; [exact M|exact A|reflexivity..|rewrite Ph; reflexivity| |].
  - reflexivity.
  - apply pinv_nil. eapply accept_inv; [exact Pi|rewrite Ph; reflexivity|rewrite Ph; reflexivity|exact Sk|left; reflexivity|reflexivity| | |cbn; lia|reflexivity].
    2:{ destruct (pi_fresh _ _ _ _ _ _ _ _ _ _ _ _ _ Pi) as (_ & _ & K); [rewrite Ph; reflexivity|exact K]. }
    eapply reset_same; [exact Pi|rewrite Ph; reflexivity].
  - cbn. destruct (rt_err t =? OK); reflexivity.
  - apply pinv_nil. eapply accept_inv; [exact Pi|rewrite Ph; reflexivity|rewrite Ph; reflexivity|exact Sk| |reflexivity..|cbn; lia|reflexivity].
    cbn. destruct (rt_err t =? OK); auto.
Qed.

(** ** Discovery *)

Lemma discover_ok P w hd last clean s w' : minv P w hd last clean ->
  t_step P w (TDiscover s) = Some (Ret w') -> minv P w' hd last clean.
Proof.
  cbn. intros M. destruct (w_init w) eqn:Ei; [discriminate|]. intros E; injection E as <-.
  pose proof (mi_blocks _ _ _ _ _ M) as (O1 & O2 & O3 & O4). destruct M. constructor; cbn; try assumption.
  - split; [|split; [exact O2|split; assumption]]. apply Forall_app. split; [exact O1|]. constructor; [|constructor].
    split; [cbn; lia|]. cbn. intros; lia.
  - intros j C. destruct (mi_clean j C). congruence.
Qed.
Lemma init_ok P w hd last clean w' : minv P w hd last clean ->
  t_step P w TInit = Some (Ret w') -> minv P w' hd last clean.
Proof.
  intros M E. injection E as <-. destruct M. constructor; cbn; try assumption.
  intros j C. destruct (mi_clean j C). auto.
Qed.

(** ** What every step keeps *)

Lemma apply_failed w i fl r w' : apply_ckpt w i fl r = Some (Ret w') -> sn_failed w' = sn_failed w.
Proof.
  unfold apply_ckpt. destruct r as [[[[e hi] ts] b]| |]; try discriminate. intros E; injection E as <-. reflexivity.
Qed.
Lemma sn_failed_step w a w' : sn_step w a = Some (Ret w') -> incl (sn_failed w) (sn_failed w').
Proof.
  destruct a; cbn [sn_step]; intros E;
    repeat match type of E with
           | match ?x with _ => _ end = _ => destruct x eqn:?; try discriminate E
           | (let '(_, _) := ?x in _) = _ => destruct x eqn:?
           end; try (apply apply_failed in E; rewrite E; apply incl_refl); injection E as <-; cbn;
    try apply incl_refl; try (apply incl_appl, incl_refl).
Qed.

Definition stepped (w w' : world) (fd : list (list Z * Z * Z * Z)) : Prop :=
  (exists l, sn_run (w_s w) l = Some (Ret (w_s w')) /\ discovered l = fd) /\
  incl (sn_failed (w_s w)) (sn_failed (w_s w')) /\ (exists d, w_disk w' = w_disk w ++ d) /\
  (w_init w = true -> w_init w' = true /\ fd = []) /\ incl (w_outs w) (w_outs w') /\
  (w_refused w = true -> w_refused w' = true).

Lemma stepped_quiet w w' : w_s w' = w_s w -> (exists d, w_disk w' = w_disk w ++ d) -> (w_init w = true -> w_init w' = true) ->
  incl (w_outs w) (w_outs w') -> (w_refused w = true -> w_refused w' = true) -> stepped w w' [].
Proof.
  intros E D I O R. split; [exists []; rewrite E; auto|]. rewrite E. split; [apply incl_refl|]. split; [exact D|].
  split; [intros K; split; [exact (I K)|reflexivity]|]. auto.
Qed.
Lemma stepped_does w a k w' : does w a k = Some (Ret w') ->
  (forall s, a <> ADiscover s) ->
  (forall s, w_s (k s) = s /\ w_disk (k s) = w_disk w /\ w_init (k s) = w_init w /\ w_outs (k s) = w_outs w /\
             (w_refused w = true -> w_refused (k s) = true)) ->
  stepped w w' [].
Proof.
  unfold does. destruct (sn_step (w_s w) a) as [[s| |]|] eqn:E; try discriminate. intros K Na Kk. injection K as <-.
  destruct (Kk s) as (K1 & K2 & K3 & K4 & K5). split.
  { exists [a]. cbn. rewrite E, K1. split; [reflexivity|]. destruct a; try reflexivity. exfalso; eapply Na; reflexivity. }
  rewrite K1. split; [eapply sn_failed_step; exact E|]. split; [exists []; rewrite K2, app_nil_r; reflexivity|].
  split; [intros I; split; [congruence|reflexivity]|]. split; [rewrite K4; apply incl_refl|exact K5].
Qed.

Lemma step_stepped P w e w' : t_step P w e = Some (Ret w') -> stepped w w' (found [e]).
Proof.
  intros E.
  assert (Q : forall w', w_s w' = w_s w -> w_disk w' = w_disk w -> w_init w' = w_init w -> w_outs w' = w_outs w ->
             w_refused w' = w_refused w -> stepped w w' []).
  { intros v E1 E2 E3 E4 E5. apply stepped_quiet; try (rewrite ?E1, ?E3, ?E5; auto; fail); [exists []; rewrite app_nil_r; exact E2|rewrite E4; apply incl_refl]. }
  destruct (port_of e) as [i|] eqn:Ep.
  - assert (Fd : found [e] = []) by (destruct e; try discriminate Ep; reflexivity). rewrite Fd.
    assert (E' : exists ph ch, match e with
              | TRecv _ a => if hears w i a then recv_step P w i ch a else None
              | TAccept _ m a => if hears w i a then accept_step w i m ch a else None
              | _ => sender_step P w i ph ch e end = Some (Ret w')).
    { destruct e; try discriminate Ep; injection Ep as ->; cbn [t_step port_of] in E;
        destruct (nth_error (w_sph w) i) as [ph|]; try discriminate E; destruct (nth_error (w_chan w) i) as [ch|]; try discriminate E;
        exists ph, ch; exact E. }
    clear E. destruct E' as (ph & ch & E).
    destruct e; try discriminate Ep; injection Ep as ->; try (unfold sender_step in E; destruct ph; try discriminate E).
    all: repeat match type of E with
           | match take_down ?x with _ => _ end = _ => destruct (take_down x) as [[[] ?]|]; try discriminate E
           | (if ?x then _ else _) = _ => destruct x eqn:?; try discriminate E
           | (let _ := _ in _) = _ => cbv zeta in E
           | match ?x with _ => _ end = _ => destruct x eqn:?; try discriminate E
           end.
    all: try (injection E as <-; apply Q; reflexivity).
    all: try (eapply stepped_does; [exact E|intros; discriminate|intros s'; cbn; repeat split; auto; fail]).
    all: try (apply recv_step_eq in E as (up' & d & r & o & _ & _ & ->); apply stepped_quiet; cbn; auto; try (eexists; reflexivity); apply incl_appl, incl_refl).
    all: try (unfold accept_step in E; destruct a; try discriminate E; destruct (skipn m (ch_new ch)); try discriminate E;
        destruct (rs_step _ _) as [[[r o]| |]|]; try discriminate E; injection E as <-;
        (apply stepped_quiet; cbn; auto; try (eexists; reflexivity); apply incl_appl, incl_refl)).
    + eapply stepped_does; [exact E|intros; discriminate|]. intros s'. destruct r; cbn; repeat split; auto.
    + eapply stepped_does; [exact E|intros; discriminate|]. intros s'. cbn. repeat split; auto. intros ->; reflexivity.
  - destruct e; try discriminate Ep; cbn [t_step] in E.
    + destruct (w_init w) eqn:Ei; [discriminate|]. cbn in E. injection E as <-. split; [exists [ADiscover s]; split; reflexivity|].
      cbn. split; [apply incl_refl|]. split; [exists []; rewrite app_nil_r; reflexivity|]. split; [congruence|]. split; [apply incl_refl|auto].
    + injection E as <-. apply stepped_quiet; cbn; auto; try apply incl_refl; exists []; rewrite app_nil_r; reflexivity.
Qed.

Lemma holds_app' d d' s x : holds d s x -> holds (d ++ d') s x.
Proof. apply holds_app. Qed.
Lemma delivered_app d d' x : delivered d x -> delivered (d ++ d') x.
Proof.
  destruct x as [[[nm s] o] n]. cbn. intros [(lo & k & I) B]. split; [exists lo, k; apply in_or_app; auto|].
  intros y Hy. apply holds_app, B, Hy.
Qed.

Lemma final_step P w e w' : final w -> t_step P w e = Some (Ret w') -> final w'.
Proof.
  intros [I D] E. destruct (step_stepped _ _ _ _ E) as ((l & R & Dl) & Fl & (d & Dd) & In' & _).
  destruct (In' I) as [I' Fd]. split; [exact I'|]. rewrite Fd in Dl.
  pose proof (blocks_conserved _ _ _ R) as Pm. rewrite Dl, app_nil_r in Pm. intros x Ix.
  apply (Permutation_in _ Pm) in Ix. destruct (D x Ix) as [K|K].
  - left. unfold reported in *. apply in_map_iff in K as (h & <- & K). apply in_map, Fl, K.
  - right. rewrite Dd. apply delivered_app, K.
Qed.

Lemma step_at P w e w' i : t_step P w e = Some (Ret w') -> port_of e = Some i ->
  exists ph ch, nth_error (w_sph w) i = Some ph /\ nth_error (w_chan w) i = Some ch /\
    match e with
    | TRecv _ a => hears w i a = true /\ recv_step P w i ch a = Some (Ret w')
    | TAccept _ m a => hears w i a = true /\ accept_step w i m ch a = Some (Ret w')
    | _ => sender_step P w i ph ch e = Some (Ret w')
    end.
Proof.
  intros E Ep. destruct e; try discriminate Ep; injection Ep as ->; cbn [t_step port_of] in E;
    destruct (nth_error (w_sph w) i) as [ph|]; try discriminate E; destruct (nth_error (w_chan w) i) as [ch|]; try discriminate E;
    exists ph, ch; split; try reflexivity; split; try reflexivity; try exact E;
    destruct (hears w i a) eqn:Hh; try discriminate E; auto.
Qed.

Lemma gone_step w i a x : (forall t, In t (rs_threads (w_r w)) -> rt_ph t = PGone) ->
  rs_step (w_r w) (EThread i a) = Some x -> False.
Proof.
  intros G E. cbn in E. unfold threadStep in E. destruct (nth_error (rs_threads (w_r w)) i) as [t|] eqn:Et; [|discriminate].
  rewrite (G _ (nth_error_In _ _ Et)) in E. discriminate E.
Qed.

Lemma rdown_put ch m : rdown (put_up ch m) = rdown ch.
Proof.
  unfold rdown, put_up. destruct (rev (ch_new ch)); [|reflexivity]. destruct (ch_r ch) eqn:E; [reflexivity|]. rewrite E. reflexivity.
Qed.

Lemma take_rdown ch m ch' : take_down ch = Some (m, ch') -> rdown ch = m :: rdown ch'.
Proof.
  unfold take_down, rdown. destruct (ch_new ch); [|discriminate]. destruct (ch_r ch) as [c|]; [|discriminate].
  destruct (cn_down c) eqn:E; [discriminate|]. intros K; injection K as <- <-. reflexivity.
Qed.

Lemma dead_step P w e w' : dead w -> t_step P w e = Some (Ret w') -> dead w'.
Proof.
  intros D E. pose proof D as (D1 & D2 & D3). destruct (port_of e) as [i|] eqn:Ep.
  2:{ destruct e; try discriminate Ep; cbn in E; [destruct (w_init w); [discriminate|]|]; injection E as <-; exact D. }
  destruct (step_at _ _ _ _ _ E Ep) as (ph & ch & A5 & A6 & S). clear E.
  pose proof (D2 _ (nth_error_In _ _ A6)) as Dc. pose proof (D3 _ (nth_error_In _ _ A5)) as [Dp1 Dp2].
  assert (Keep : forall v, w_r v = w_r w ->
            (w_chan v = w_chan w \/ exists ch', w_chan v = set_nth (w_chan w) i ch' /\ ~ In DDone (rdown ch')) ->
            (w_sph v = w_sph w \/ exists q, w_sph v = set_nth (w_sph w) i q /\ q <> SDone /\ q <> SOk) -> dead v).
  { intros v E1 E2 E3. split; [rewrite E1; exact D1|]. split.
    - destruct E2 as [->|(ch' & -> & K)]; [exact D2|]. intros c I. apply in_set_nth in I as [->|I]; auto.
    - destruct E3 as [->|(q & -> & K)]; [exact D3|]. intros c I. apply in_set_nth in I as [->|I]; auto. }
  assert (Kd : ~ In DDone (rdown (dial ch))) by exact Dc.
  assert (Ku : forall m, ~ In DDone (rdown (put_up ch m))) by (intros m; rewrite rdown_put; exact Dc).
  assert (Kt : forall m ch', take_down ch = Some (m, ch') -> m <> DDone /\ ~ In DDone (rdown ch')).
  { intros m ch' T. rewrite (take_rdown _ _ _ T) in Dc. split; intros K; apply Dc; [left; congruence|right; exact K]. }
  destruct e; try discriminate Ep; injection Ep as ->.
  12:{ destruct S as [_ S]. apply recv_step_eq in S as (up' & d & r & o & _ & Es & _). exfalso. eapply gone_step; eassumption. }
  12:{ destruct S as [_ S]. unfold accept_step in S. exfalso. destruct a; try discriminate S; destruct (skipn m (ch_new ch)); try discriminate S;
       destruct (rs_step _ _) eqn:Es in S; try discriminate S; eapply gone_step; eassumption. }
  all: unfold sender_step in S; destruct ph; try discriminate S.
  all: repeat match type of S with
           | match take_down ?x with _ => _ end = _ => destruct (take_down x) as [[? ?]|] eqn:?; try discriminate S
           | (if ?x then _ else _) = _ => destruct x eqn:?; try discriminate S
           | (let _ := _ in _) = _ => cbv zeta in S
           | match ?x with _ => _ end = _ => destruct x eqn:?; try discriminate S
           end.
  all: try (unfold does in S; destruct (sn_step _ _) as [[s'| |]|]; try discriminate S).
  all: try (destruct (Kt _ _ eq_refl) as [KT1 KT2]).
  all: try (exfalso; apply KT1; reflexivity).
  all: try congruence.
  all: injection S as <-; try (match goal with r : sent |- _ => destruct r end).
  all: apply Keep; cbn; [reflexivity|first [left; reflexivity|right; eexists; split; [reflexivity|]; auto]|
         first [left; reflexivity|right; eexists; split; [reflexivity|]]].
  all: try (split; discriminate).
  all: repeat match goal with |- context [if ?b then _ else _] => destruct b end; try (split; discriminate).
  all: try (match goal with |- context [after_global ?l] => destruct l end; split; discriminate).
Qed.

(** ** The whole *)

Lemma init_minv P : minv P (world_init P) [] None (fun _ => false).
Proof.
  constructor; cbn.
  - unfold rsession_init, sender_init; cbn. rewrite ?map_length, ?repeat_length. auto.
  - reflexivity.
  - induction (tp_ports P) as [|q r IH]; cbn in *; [reflexivity|exact IH].
  - intros c [].
  - intros j p t H F ph ch (A1 & A2 & A3 & A4 & A5 & A6). cbn in *.
    assert (Et : t = rthread_new p).
    { clear - A1 A2. revert j A1 A2. induction (tp_ports P) as [|q r IH]; intros [|j] A1 A2; cbn in *; try discriminate; [congruence|eauto]. }
    apply nth_error_In, repeat_spec in A3, A4, A5, A6. subst.
    constructor; cbn; try (intros; discriminate); try (intros; contradiction); auto.
    + split; [lia|]. intros; lia.
    + repeat split; discriminate.
    + split; discriminate.
    + intros _. left. intros; contradiction.
    + intros _. repeat split; auto; intros; contradiction.
    + split; intros; [contradiction|discriminate].
    + intros _ [[]|[(c & [] & _)|K]]; exact K.
  - split; [constructor|]. split; [|split; [|constructor]].
    + cbn. intros h I. apply repeat_spec in I. discriminate I.
    + cbn. apply Forall_forall. intros h I. apply repeat_spec in I. subst h. constructor.
  - intros j K; discriminate K.
  - reflexivity.
  - intros j K; discriminate K.
Qed.

Definition tinv (P : tparams) (w : world) : Prop :=
  (final w /\ exists j, In (OEnding j) (w_outs w)) \/ dead w \/ outcome_ok P w.

Lemma tinv_step P w e w' : NoDup (tp_ports P) -> tp_seqids P = true \/ tp_mode P <> Plain ->
  (forall i x, e <> TRecv i (INonRetryable x)) -> tinv P w -> t_step P w e = Some (Ret w') -> tinv P w'.
Proof.
  intros Nd Md Na J E. destruct J as [[Fi [j Ij]]|[De|[[K1 K2]|(hd & last & clean & M)]]].
  - left. split; [eapply final_step; eassumption|]. exists j. destruct (step_stepped _ _ _ _ E) as (_ & _ & _ & _ & I & _). auto.
  - right; left. eapply dead_step; eassumption.
  - right; right; left. destruct (step_stepped _ _ _ _ E) as (_ & _ & _ & _ & _ & I). auto.
  - destruct (port_of e) as [i|] eqn:Ep.
    2:{ right; right; right. exists hd, last, clean. destruct e; try discriminate Ep; [eapply discover_ok|eapply init_ok]; eassumption. }
    pose proof (step_at _ _ _ _ _ E Ep) as (ph & ch & A5 & A6 & S).
    assert (Li : (i < length (tp_ports P))%nat).
    { destruct (mi_len _ _ _ _ _ M) as (_ & _ & _ & L4 & _). rewrite <- L4. apply nth_error_Some. congruence. }
    destruct (port_at _ _ _ _ _ _ M Li) as (p & t & H & F & ph' & ch' & A & _).
    assert (ch' = ch) by (destruct A as (_ & _ & _ & _ & _ & K); congruence). subst ch'.
    destruct e; try (right; right; eapply sender_ok_step; try eassumption; intros; discriminate).
    + injection Ep as ->. destruct S as [Hh S].
      destruct (recv_ok _ _ _ _ _ _ _ _ _ _ _ _ _ _ Nd M A Hh (fun x K => Na i x (f_equal (TRecv i) K)) S) as [K|[(K1 & _ & K2)|K]].
      * right; right; exact K.
      * left; auto.
      * right; left; exact K.
    + injection Ep as ->. destruct S as [Hh S]. right; right. eapply accept_ok; eassumption.
Qed.

Lemma tinv_run P l : NoDup (tp_ports P) -> tp_seqids P = true \/ tp_mode P <> Plain -> no_silent_exit l ->
  forall w w', tinv P w -> t_run P w l = Some (Ret w') -> tinv P w'.
Proof.
  intros Nd Md. induction l as [|e l IH]; intros Ns w w' J E; cbn in E; [injection E as <-; exact J|].
  destruct (t_step P w e) as [[w1| |]|] eqn:Es; try discriminate E. eapply IH; [| |exact E].
  - intros i x K. apply (Ns i x). right; exact K.
  - eapply tinv_step; try eassumption. intros i x K. apply (Ns i x). left; exact K.
Qed.

Lemma tinv_init P : tinv P (world_init P).
Proof. right; right; right. exists [], None, (fun _ => false). apply init_minv. Qed.

Lemma run_blocks P l : forall w w', t_run P w l = Some (Ret w') ->
  Permutation (map ident (all_blocks (w_s w'))) (map ident (all_blocks (w_s w)) ++ found l).
Proof.
  induction l as [|e l IH]; intros w w' E; cbn in E.
  - injection E as <-. cbn. rewrite app_nil_r. apply Permutation_refl.
  - destruct (t_step P w e) as [[w1| |]|] eqn:Es; try discriminate E.
    destruct (step_stepped _ _ _ _ Es) as ((l1 & R & Dl) & _). pose proof (blocks_conserved _ _ _ R) as Pm. rewrite Dl in Pm.
    assert (Fe : found (e :: l) = found [e] ++ found l) by (destruct e; reflexivity). rewrite Fe.
    eapply Permutation_trans; [apply (IH _ _ E)|]. rewrite app_assoc. apply Permutation_app_tail, Pm.
Qed.

Lemma init_blocks P : map ident (all_blocks (w_s (world_init P))) = [].
Proof.
  cbn. unfold all_blocks, sender_init; cbn. rewrite app_nil_r. induction (length (tp_ports P)) as [|n IH]; cbn in *; [reflexivity|exact IH].
Qed.

Lemma transfer_ok P l w i : NoDup (tp_ports P) -> tp_seqids P = true \/ tp_mode P <> Plain -> no_silent_exit l ->
  t_run P (world_init P) l = Some (Ret w) -> (tp_mode P = Plain -> w_refused w = false) -> sender_ok w i ->
  w_init w = true /\ forall b, In b (found l) -> reported w b \/ delivered (w_disk w) b.
Proof.
  intros Nd Md Ns E Rf So.
  assert (Fi : final w).
  { destruct (tinv_run _ _ Nd Md Ns _ _ (tinv_init P) E) as [[Fi _]|[(_ & _ & D)|[[K1 K2]|(hd & last & clean & M)]]].
    - exact Fi.
    - exfalso. destruct (D _ (nth_error_In _ _ So)) as [_ K]. apply K; reflexivity.
    - rewrite (Rf K1) in K2. discriminate K2.
    - exfalso. assert (Li : (i < length (tp_ports P))%nat).
      { destruct (mi_len _ _ _ _ _ M) as (_ & _ & _ & L4 & _). rewrite <- L4. apply nth_error_Some. unfold sender_ok in So. congruence. }
      destruct (port_at _ _ _ _ _ _ M Li) as (p & t & H & F & ph' & ch' & A & Pi).
      destruct (pi_ph _ _ _ _ _ _ _ _ _ _ _ _ _ Pi) as [_ K]. apply K. destruct A as (_ & _ & _ & _ & A5 & _). unfold sender_ok in So. congruence. }
  destruct Fi as [I D]. split; [exact I|]. intros b Ib. apply D.
  eapply Permutation_in; [apply Permutation_sym, (run_blocks _ _ _ _ E)|]. rewrite init_blocks. exact Ib.
Qed.

Lemma first_ending P l w e w' j : NoDup (tp_ports P) -> tp_seqids P = true \/ tp_mode P <> Plain -> no_silent_exit (l ++ [e]) ->
  t_run P (world_init P) l = Some (Ret w) -> (forall k, ~ In (OEnding k) (w_outs w)) ->
  t_step P w e = Some (Ret w') -> In (OEnding j) (w_outs w') -> (tp_mode P = Plain -> w_refused w = false) ->
  w_init w' = true /\ allrecv w' /\ Permutation (map ident (all_blocks (w_s w'))) (found l).
Proof.
  intros Nd Md Ns E No Es Io Rf.
  assert (Ns1 : no_silent_exit l) by (intros i x K; apply (Ns i x), in_or_app; left; exact K).
  assert (Pm : Permutation (map ident (all_blocks (w_s w))) (found l)).
  { pose proof (run_blocks _ _ _ _ E) as K. rewrite init_blocks in K. exact K. }
  assert (Er : exists i a, e = TRecv i a).
  { destruct e; try (eexists; eexists; reflexivity); exfalso.
    1,2: cbn in Es; try (destruct (w_init w); [discriminate|]); injection Es as <-; exact (No _ Io).
    all: destruct (step_at _ _ _ _ _ Es eq_refl) as (ph & ch & _ & _ & S).
    12:{ destruct S as [Hh S]. unfold accept_step in S. unfold hears in Hh.
      destruct a; try discriminate S; destruct (skipn m (ch_new ch)); try discriminate S;
       destruct (rs_step _ _) as [[[r o]| |]|] eqn:Er in S; try discriminate S; injection S as <-; cbn in Io;
       apply in_app_or in Io as [Io|Io]; try exact (No _ Io);
       apply step_cases in Er as (t & Et & _ & [(t' & _ & _ & _ & Er)|(_ & _ & Er)]);
         try (unfold leave in Er; injection Er as _ ->; destruct Io as [Io|[]]; discriminate Io);
         unfold stateStep in Er; destruct (rt_ph t); try discriminate Er; injection Er as <- <-; destruct Io as [Io|[]]; discriminate Io. }
    all: apply (No j); clear - Io S; unfold sender_step in S; destruct ph; try discriminate S;
      repeat match type of S with
           | match take_down ?x with _ => _ end = _ => destruct (take_down x) as [[? ?]|] eqn:?; try discriminate S
           | (if ?x then _ else _) = _ => destruct x eqn:?; try discriminate S
           | (let _ := _ in _) = _ => cbv zeta in S
           | match ?x with _ => _ end = _ => destruct x eqn:?; try discriminate S
           end;
      try (unfold does in S; destruct (sn_step _ _) as [[s'| |]|]; try discriminate S);
      injection S as <-; try (match goal with r : sent |- _ => destruct r end); exact Io. }
  destruct Er as (i & a & ->). destruct (step_at _ _ _ _ _ Es eq_refl) as (ph & ch & _ & A6 & Hh & S).
  destruct (recv_step_eq _ _ _ _ _ _ S) as (up' & d & r & o & Ef & Er & Ew).
  destruct (tinv_run _ _ Nd Md Ns1 _ _ (tinv_init P) E) as [[_ [k Ik]]|[(D & _)|[[K1 K2]|(hd & last & clean & M)]]].
  - exfalso; exact (No _ Ik).
  - exfalso. eapply gone_step; eassumption.
  - rewrite (Rf K1) in K2. discriminate K2.
  - assert (Li : (i < length (tp_ports P))%nat).
    { destruct (mi_len _ _ _ _ _ M) as (_ & _ & _ & _ & L5). rewrite <- L5. apply nth_error_Some. congruence. }
    destruct (port_at _ _ _ _ _ _ M Li) as (p & t & H & F & ph' & ch' & A & Pi).
    assert (ch' = ch) by (destruct A as (_ & _ & _ & _ & _ & K); congruence). subst ch'.
    pose proof A as (_ & A2 & _).
    apply (step_split _ _ _ _ _ t) in Er as [[_ Er]|(_ & _ & Er)]; [| |exact A2|exact (mi_abort _ _ _ _ _ M)].
    + exfalso. unfold leave in Er. injection Er as _ <-. subst w'. cbn in Io. apply in_app_or in Io as [Io|[Io|[]]]; [exact (No _ Io)|discriminate Io].
    + assert (Io' : In (OEnding j) o) by (subst w'; cbn in Io; apply in_app_or in Io as [Io|Io]; [exfalso; exact (No _ Io)|exact Io]).
      state_cases Er; try (exfalso; cbn in Io'; destruct Io' as [K|K]; [discriminate K|exact K]); try (destruct Io'; fail).
      all: cbn [feed] in Ef; injection Ef as <- <-; rewrite recv_chan_same in Ew by reflexivity; subst w'.
      all: match goal with Ph : rt_ph _ = _ |- _ =>
             destruct (ending_ok P w hd last clean i p t H F ph' ch (go (mark t RFinished) PSendDone) Nd M A) as ([W1 _] & W2 & _);
               [rewrite Ph; reflexivity|assumption..|reflexivity|reflexivity|] end.
      all: split; [exact W1|split; [exact W2|exact Pm]].
Qed.

(** ** Without encryption tags no block waits *)

Definition nowait (w : world) : Prop :=
  rs_abort (w_r w) = false /\ forall t, In t (rs_threads (w_r w)) -> rt_unver t = [].

Lemma nowait_put w i u r d o ch : nowait w -> rs_threads r = set_nth (rs_threads (w_r w)) i u -> rt_unver u = [] ->
  rs_abort r = false -> nowait (with_recv (with_chan w i ch) r d o).
Proof.
  intros [_ N] E U A. split; [exact A|]. cbn. rewrite E. intros t I. apply in_set_nth in I as [->|I]; auto.
Qed.

Lemma rs_nowait w i a r o d ch : nowait w -> (forall q x n, a <> ICmd (CFile q x (FStored n))) ->
  rs_step (w_r w) (EThread i a) = Some (Ret (r, o)) -> nowait (with_recv (with_chan w i ch) r d o).
Proof.
  intros N Na E. pose proof N as [Ab U].
  destruct (nth_error (rs_threads (w_r w)) i) as [t|] eqn:Et; [|cbn in E; unfold threadStep in E; rewrite Et in E; discriminate E].
  assert (Ut : rt_unver t = []) by (apply U; eapply nth_error_In; exact Et).
  apply (step_split _ _ _ _ _ t) in E as [[_ E]|(_ & _ & E)]; [| |exact Et|exact Ab].
  - unfold leave in E. cbn zeta in E. injection E as <- <-.
    eapply nowait_put; [exact N| | |].
    + match goal with |- context [if ?b then _ else _] => destruct b end; [|reflexivity].
      unfold endCurGlobalSession; cbn. destruct (rs_started (w_r w)); reflexivity.
    + exact Ut.
    + match goal with |- context [if ?b then _ else _] => destruct b end; [|exact Ab].
      unfold endCurGlobalSession; cbn. destruct (rs_started (w_r w)); exact Ab.
  - state_cases E.
    all: try (exfalso; eapply Na; reflexivity).
    all: eapply nowait_put; [exact N|reflexivity| |exact Ab]; cbn; try exact Ut; try reflexivity.
    all: repeat match goal with |- context [if ?b then _ else _] => destruct b end; cbn; try exact Ut; reflexivity.
Qed.

Lemma nowait_step P w e w' : tp_mode P <> Tagged -> nowait w -> t_step P w e = Some (Ret w') -> nowait w'.
Proof.
  intros Nt N E. destruct (port_of e) as [i|] eqn:Ep.
  2:{ destruct e; try discriminate Ep; cbn in E; [destruct (w_init w); [discriminate|]|]; injection E as <-; exact N. }
  destruct (step_at _ _ _ _ _ E Ep) as (ph & ch & _ & _ & S). clear E.
  destruct e; try discriminate Ep; injection Ep as ->.
  12:{ destruct S as [_ S]. apply recv_step_eq in S as (up' & d & r & o & Ef & Es & ->). eapply rs_nowait; [exact N| |exact Es].
       intros q x n ->. cbn in Ef. destruct (rup ch) as [|[ss oo nn|ss oo kk nn|] rest]; try discriminate Ef.
       destruct (tp_mode P); [| |congruence]; rewrite Bool.andb_false_r in Ef; discriminate Ef. }
  12:{ destruct S as [_ S]. unfold accept_step in S. destruct a; try discriminate S; destruct (skipn m (ch_new ch)); try discriminate S;
       destruct (rs_step _ _) as [[[r o]| |]|] eqn:Es in S; try discriminate S; injection S as <-;
       (eapply rs_nowait; [exact N| |exact Es]; intros; discriminate). }
  all: assert (Er : w_r w' = w_r w); [|unfold nowait; rewrite Er; exact N].
  all: unfold sender_step in S; destruct ph; try discriminate S.
  all: repeat match type of S with
           | match take_down ?x with _ => _ end = _ => destruct (take_down x) as [[? ?]|] eqn:?; try discriminate S
           | (if ?x then _ else _) = _ => destruct x eqn:?; try discriminate S
           | (let _ := _ in _) = _ => cbv zeta in S
           | match ?x with _ => _ end = _ => destruct x eqn:?; try discriminate S
           end.
  all: try (unfold does in S; destruct (sn_step _ _) as [[s'| |]|]; try discriminate S).
  all: injection S as <-; try (match goal with r : sent |- _ => destruct r end); reflexivity.
Qed.

Lemma nowait_run P l : tp_mode P <> Tagged -> forall w w', nowait w -> t_run P w l = Some (Ret w') -> nowait w'.
Proof.
  intros Nt. induction l as [|e l IH]; intros w w' N E; cbn in E; [injection E as <-; exact N|].
  destruct (t_step P w e) as [[w1| |]|] eqn:Es; try discriminate E. eapply IH; [|exact E]. eapply nowait_step; eassumption.
Qed.

Lemma nowait_init P : nowait (world_init P).
Proof.
  split; [reflexivity|]. cbn. intros t I. apply in_map_iff in I as (p & <- & _). reflexivity.
Qed.

(** ** The statements *)

Lemma ending_received P l w e w' j : NoDup (tp_ports P) -> tp_seqids P = true \/ tp_mode P <> Plain -> no_silent_exit (l ++ [e]) ->
  t_run P (world_init P) l = Some (Ret w) -> (forall k, ~ In (OEnding k) (w_outs w)) ->
  t_step P w e = Some (Ret w') -> In (OEnding j) (w_outs w') -> (tp_mode P = Plain -> w_refused w = false) ->
  forall b, In b (found l) -> reported w' b \/ exists k h, ident h = b /\ received_by w' k h.
Proof.
  intros Nd Md Ns E No Es Io Rf b Ib.
  destruct (first_ending _ _ _ _ _ _ Nd Md Ns E No Es Io Rf) as (_ & R & Pm).
  apply (Permutation_in _ (Permutation_sym Pm)) in Ib. apply in_map_iff in Ib as (h & <- & I).
  destruct (R h I) as [K|(k & K)]; [left; apply in_map, K|right; eauto].
Qed.

Lemma ending_counted P l w e w' j : NoDup (tp_ports P) -> tp_mode P <> Tagged ->
  tp_seqids P = true \/ tp_mode P <> Plain -> no_silent_exit (l ++ [e]) ->
  t_run P (world_init P) l = Some (Ret w) -> (forall k, ~ In (OEnding k) (w_outs w)) ->
  t_step P w e = Some (Ret w') -> In (OEnding j) (w_outs w') -> (tp_mode P = Plain -> w_refused w = false) ->
  forall b, In b (found l) -> reported w' b \/ exists k h, ident h = b /\ counted_by w' k h.
Proof.
  intros Nd Nt Md Ns E No Es Io Rf b Ib.
  pose proof (nowait_step _ _ _ _ Nt (nowait_run _ _ Nt _ _ (nowait_init P) E) Es) as [_ U].
  destruct (ending_received _ _ _ _ _ _ Nd Md Ns E No Es Io Rf b Ib) as [K|(k & h & Eh & hi & t & m & K1 & K2 & K3 & K4)]; [auto|].
  right. exists k, h. split; [exact Eh|]. exists hi, t, m. rewrite (U _ (nth_error_In _ _ K2)) in K4.
  split; [exact K1|]. split; [exact K2|]. split; [exact K3|]. unfold zlen in K4; cbn in K4. lia.
Qed.
