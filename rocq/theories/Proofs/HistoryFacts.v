From Verif Require Import Spec.HistorySpec Proofs.SumFacts Proofs.BytesFacts Proofs.QueueMonitorFacts.
From Coq Require Import Lia.

(** ** markSourceAsFailed *)
Definition credit (c : option checkpoint) (h : hsrc) : Z :=
  match c with Some k => if about k h then ck_lastBlockReceivedBytes k else 0 | None => 0 end.

Lemma mark_spec h c ts h' ts' : markSourceAsFailed h c ts = (h', ts') ->
  let r := credit c h in
  shortened r h h' /\ h_o h' = h_o h /\ h_n h' = h_n h /\ s_failed (h_src h') = st_failed (h_st h') /\
  (sent_whole h = true ->
     h_st h' = st_bump (h_st h) 0 0 (- st_effHdr (h_st h)) (r - s_size (h_src h)) (-1) 1 SOCKET_WRITE_ERROR /\
     ts' = st_bump ts 0 0 (- st_effHdr (h_st h)) (r - s_size (h_src h)) (-1) 1 (st_local ts)) /\
  (sent_whole h = false ->
     h_st h' = st_bump (h_st h) 0 0 0 r 0 0 (st_local (h_st h)) /\
     ts' = st_bump ts 0 0 0 r 0 0 (st_local ts)).
Proof.
  intros E r. cbv delta [markSourceAsFailed] in E. cbv beta in E.
  set (valid := match c with
    | None => false
    | Some k => if ck_hasSeqId k
                then (ck_lastBlockSeqId k =? s_seqId (h_src h)) &&
                     (ck_lastBlockOffset k =? s_offset (h_src h))
                else true
    end) in *.
  assert (Er : match c with
               | Some k => if valid then ck_lastBlockReceivedBytes k else 0
               | None => 0 end = r).
  { subst r valid; unfold credit, about; destruct c as [k|]; [|reflexivity].
    destruct (ck_hasSeqId k); reflexivity. }
  cbv zeta in E. fold valid in E. rewrite Er in E. clear Er. clearbody r. clear valid.
  unfold sent_whole. destruct (st_local (h_st h) =? OK) eqn:El; cbn [negb] in E;
    injection E as <- <-; unfold shortened;
    (split; [cbn; repeat split; reflexivity|split; [reflexivity|split; [reflexivity|split; [reflexivity|]]]]).
  - split; [|discriminate]. intros _. split; unfold incrFailedAttempts, setLocalErrorCode, decrNumBlocks,
      subtractEffectiveBytes, st_bump, set_st; cbn; f_equal; lia.
  - split; [discriminate|]. intros _. split; unfold addEffectiveBytes, st_bump, set_st; cbn; f_equal; lia.
Qed.

Lemma mark_about h c : credit (Some c) h = if about c h then ck_lastBlockReceivedBytes c else 0.
Proof. reflexivity. Qed.

(** ** fail_all *)
Lemma fail_all_come_back l c : forall ts ret ts', fail_all (rev l) c ts = (ret, ts') ->
  come_back c l (rev ret).
Proof.
  assert (G : forall r ts ret ts', fail_all r c ts = (ret, ts') ->
    match r with [] => ret = [] | _ =>
      exists init last init' last', r = init ++ [last] /\ ret = init' ++ [last'] /\
        Forall2 (shortened 0) init init' /\
        shortened (if about c last then ck_lastBlockReceivedBytes c else 0) last last' end).
  { induction r as [|h r IH]; intros ts ret ts' E; [cbn in E; injection E as <- <-; reflexivity|].
    cbn [fail_all] in E.
    destruct (markSourceAsFailed h (match r with [] => Some c | _ => None end) ts) as [h' ts1] eqn:Em.
    destruct (fail_all r c ts1) as [r' ts2] eqn:Ef. injection E as <- <-.
    pose proof (mark_spec _ _ _ _ _ Em) as (Hs & _). specialize (IH _ _ _ Ef).
    destruct r as [|h2 r].
    - subst r'. exists [], h, [], h'. split; [reflexivity|split; [reflexivity|split; [constructor|exact Hs]]].
    - destruct IH as (i & la & i' & la' & E1 & E2 & E3 & E4).
      exists (h :: i), la, (h' :: i'), la'. rewrite E1, E2.
      split; [reflexivity|split; [reflexivity|split; [constructor; [exact Hs|exact E3]|exact E4]]]. }
  intros ts ret ts' E. specialize (G _ _ _ _ E).
  destruct l as [|h l].
  - cbn in G. subst ret. constructor.
  - destruct (rev (h :: l)) as [|x y] eqn:Er.
    { apply (f_equal (@length _)) in Er. rewrite rev_length in Er. discriminate. }
    destruct G as (i & la & i' & la' & E1 & E2 & E3 & E4).
    rewrite <- Er in E1. apply (f_equal (@rev _)) in E1. rewrite rev_involutive, rev_app_distr in E1.
    cbn [rev app] in E1. injection E1 as -> ->.
    rewrite E2, rev_app_distr; cbn [rev app]. constructor; [exact E4|].
    clear -E3. induction E3 as [|a b l1 l2 Hab H12 IH]; [constructor|].
    cbn [rev]. apply Forall2_app; [exact IH|constructor; [exact Hab|constructor]].
Qed.

(** ** setCheckpoint *)
Lemma setCheckpoint_inv hi ts c g e hi' ts' ret :
  setCheckpoint hi ts c g = Ret (e, hi', ts', ret) ->
  (e = INVALID_CHECKPOINT /\ hi' = hi /\ ts' = ts /\ ret = []) \/
  (e <> INVALID_CHECKPOINT /\ 0 <= ck_numBlocks c <= zlen (hi_list hi) /\
   validateCheckpoint (hi_last hi) c g = Ret e /\
   fail_all (rev (skipn (Z.to_nat (ck_numBlocks c)) (hi_list hi))) c ts = (ret, ts') /\
   hi' = {| hi_list := firstn (Z.to_nat (ck_numBlocks c)) (hi_list hi);
            hi_global := hi_global hi || g; hi_acked := ck_numBlocks c;
            hi_last := Some c; hi_inUse := hi_inUse hi |}).
Proof.
  unfold setCheckpoint. destruct (zlen (hi_list hi) <? ck_numBlocks c) eqn:E1; intros E.
  { injection E as <- <- <- <-. left; repeat split; reflexivity. }
  destruct (validateCheckpoint (hi_last hi) c g) as [v| |] eqn:Ev; cbn [obind] in E; try discriminate.
  destruct (v =? INVALID_CHECKPOINT) eqn:Ei.
  { injection E as <- <- <- <-. left; repeat split; reflexivity. }
  destruct (ck_numBlocks c <? 0) eqn:E0; [discriminate|].
  destruct (fail_all _ c ts) as [r t] eqn:Ef. injection E as <- <- <- <-.
  right. apply Z.ltb_ge in E1, E0. apply Z.eqb_neq in Ei.
  split; [exact Ei|split; [lia|split; [reflexivity|split; [reflexivity|reflexivity]]]].
Qed.

Lemma checkpoint_returns hi ts c g e hi' ts' ret :
  setCheckpoint hi ts c g = Ret (e, hi', ts', ret) -> e <> INVALID_CHECKPOINT ->
  exists rest, hi_list hi = hi_list hi' ++ rest /\
    Z.of_nat (length (hi_list hi')) = ck_numBlocks c /\
    come_back c rest (rev ret).
Proof.
  intros E Hne. destruct (setCheckpoint_inv _ _ _ _ _ _ _ _ E) as [(He & _)|(_ & Hn & _ & Hf & Hh)]; [contradiction|].
  exists (skipn (Z.to_nat (ck_numBlocks c)) (hi_list hi)). rewrite Hh; cbn [hi_list].
  split; [symmetry; apply firstn_skipn|split].
  - rewrite firstn_length. unfold zlen in Hn. lia.
  - eapply fail_all_come_back; exact Hf.
Qed.

Lemma validate_invalid last c g :
  validateCheckpoint last c g = Ret INVALID_CHECKPOINT <->
  exists l, last = Some l /\
    (ck_numBlocks c < ck_numBlocks l \/
     (ck_numBlocks c = ck_numBlocks l /\
      ck_lastBlockSeqId c = ck_lastBlockSeqId l /\ ck_lastBlockOffset c = ck_lastBlockOffset l /\
      ck_lastBlockReceivedBytes c <> ck_lastBlockReceivedBytes l)).
Proof.
  unfold validateCheckpoint. destruct last as [l|].
  2: { split; [discriminate|intros (l & E & _); discriminate]. }
  assert (X : forall P, (exists l0, Some l = Some l0 /\ P l0) <-> P l).
  { intros P; split; [intros (l0 & E & H); injection E as <-; exact H|intros H; exists l; split; [reflexivity|exact H]]. }
  rewrite X. clear X.
  destruct (Z.ltb_spec (ck_numBlocks c) (ck_numBlocks l)); [split; [intros _; left; assumption|reflexivity]|].
  destruct (Z.ltb_spec (ck_numBlocks l) (ck_numBlocks c)); [split; [discriminate|intros [?|(?&_)]; lia]|].
  destruct (Z.eqb_spec (ck_lastBlockSeqId c) (ck_lastBlockSeqId l)) as [E1|E1];
  destruct (Z.eqb_spec (ck_lastBlockOffset c) (ck_lastBlockOffset l)) as [E2|E2]; cbn [andb].
  - destruct (Z.eqb_spec (ck_lastBlockReceivedBytes c) (ck_lastBlockReceivedBytes l)) as [E3|E3]; cbn [negb].
    + split; [destruct g; discriminate|intros [?|(_ & _ & _ & ?)]; [lia|contradiction]].
    + split; [intros _; right; repeat split; [lia|assumption..]|reflexivity].
  - split; [|intros [?|(_ & _ & ? & _)]; [lia|contradiction]].
    destruct (ck_lastBlockReceivedBytes c <? 0); [discriminate|]. destruct (_ && _); discriminate.
  - split; [|intros [?|(_ & ? & _)]; [lia|contradiction]].
    destruct (ck_lastBlockReceivedBytes c <? 0); [discriminate|]. destruct (_ && _); discriminate.
  - split; [|intros [?|(_ & ? & _)]; [lia|contradiction]].
    destruct (ck_lastBlockReceivedBytes c <? 0); [discriminate|]. destruct (_ && _); discriminate.
Qed.

Lemma refused_unchanged hi ts c g hi' ts' ret :
  setCheckpoint hi ts c g = Ret (INVALID_CHECKPOINT, hi', ts', ret) ->
  hi' = hi /\ ts' = ts /\ ret = [].
Proof.
  intros E. destruct (setCheckpoint_inv _ _ _ _ _ _ _ _ E) as [(_ & H)|(H & _)]; [exact H|contradiction].
Qed.

Lemma contradicts_refused hi ts c g :
  contradicts (hi_list hi) (hi_last hi) c <->
  setCheckpoint hi ts c g = Ret (INVALID_CHECKPOINT, hi, ts, []).
Proof.
  unfold contradicts. split.
  - intros H. unfold setCheckpoint. fold (zlen (hi_list hi)) in H.
    destruct (Z.ltb_spec (zlen (hi_list hi)) (ck_numBlocks c)) as [L|L]; [reflexivity|].
    destruct H as [H|H]; [lia|].
    apply (validate_invalid (hi_last hi) c g) in H. rewrite H. reflexivity.
  - intros E. fold (zlen (hi_list hi)).
    destruct (Z.ltb_spec (zlen (hi_list hi)) (ck_numBlocks c)) as [L|L]; [left; exact L|right].
    apply (validate_invalid (hi_last hi) c g).
    unfold setCheckpoint in E. apply Z.ltb_ge in L. rewrite L in E.
    destruct (validateCheckpoint (hi_last hi) c g) as [v| |]; cbn [obind] in E; try discriminate.
    destruct (Z.eqb_spec v INVALID_CHECKPOINT) as [Hv|Hv]; [rewrite Hv; reflexivity|].
    destruct (ck_numBlocks c <? 0); [discriminate|]. destruct (fail_all _ c ts) as [r t].
    injection E as E _ _ _. contradiction.
Qed.

(** Confirmed data on the wire never makes the sender crash. *)
Lemma setCheckpoint_total hi ts c g :
  0 <= ck_numBlocks c -> 0 <= ck_lastBlockReceivedBytes c ->
  exists x, setCheckpoint hi ts c g = Ret x.
Proof.
  intros H1 H2. unfold setCheckpoint.
  destruct (zlen (hi_list hi) <? ck_numBlocks c); [eexists; reflexivity|].
  assert (V : exists v, validateCheckpoint (hi_last hi) c g = Ret v).
  { unfold validateCheckpoint. destruct (hi_last hi) as [l|]; [|eexists; reflexivity].
    destruct (ck_numBlocks c <? ck_numBlocks l); [eexists; reflexivity|].
    destruct (ck_numBlocks l <? ck_numBlocks c); [eexists; reflexivity|].
    destruct (_ && _); [destruct (negb _); eexists; reflexivity|].
    apply Z.ltb_ge in H2. rewrite H2. eexists; reflexivity. }
  destruct V as [v ->]; cbn [obind]. destruct (v =? INVALID_CHECKPOINT); [eexists; reflexivity|].
  apply Z.ltb_ge in H1. rewrite H1. destruct (fail_all _ c ts); eexists; reflexivity.
Qed.

(** ** Sums over all blocks *)
Lemma tot_expand m w : zsum m (all_blocks w) =
  zsum m (sn_queue w) + zsum (fun o => match o with Some h => m h | None => 0 end) (sn_flight w) +
  zsum (fun hi => zsum m (hi_list hi)) (sn_hist w) + zsum m (sn_failed w).
Proof.
  unfold all_blocks, flights. rewrite !zsum_app, !zsum_flat.
  rewrite (zsum_ext (fun a : option hsrc => zsum m match a with Some h => [h] | None => [] end)
             (fun o => match o with Some h => m h | None => 0 end)); [lia|].
  intros [h|] _; cbn [zsum]; lia.
Qed.

Section Measure.
  Variable m : hsrc -> Z.
  Variable tau : stats -> Z.
  Hypothesis H_open : forall b h, m (snd (openSource b h)) = m h.
  Hypothesis H_add : forall h r ts,
    m (addTransferStats h (sendStats h r)) - m h = tau (stats_add ts (sendStats h r)) - tau ts.
  Hypothesis H_mark : forall h c ts h' ts', markSourceAsFailed h c ts = (h', ts') ->
    m h' - m h = tau ts' - tau ts.
  Hypothesis H_err : forall ts e, tau (setLocalErrorCode ts e) = tau ts.
  Hypothesis H_hdr : forall ts n, tau (addHeaderBytes ts n) = tau ts.

  Lemma fail_all_sum l c : forall ts ret ts', fail_all l c ts = (ret, ts') ->
    zsum m ret - zsum m l = tau ts' - tau ts.
  Proof.
    induction l as [|h l IH]; intros ts ret ts' E; cbn [fail_all] in E.
    { injection E as <- <-; cbn [zsum]; lia. }
    destruct (markSourceAsFailed h _ ts) as [h' ts1] eqn:Em.
    destruct (fail_all l c ts1) as [l' ts2] eqn:Ef. injection E as <- <-.
    apply H_mark in Em. specialize (IH _ _ _ Ef). cbn [zsum]; lia.
  Qed.

  Lemma setCheckpoint_sum hi ts c g e hi' ts' ret :
    setCheckpoint hi ts c g = Ret (e, hi', ts', ret) ->
    zsum m ret + zsum m (hi_list hi') - zsum m (hi_list hi) = tau ts' - tau ts.
  Proof.
    intros E. destruct (setCheckpoint_inv _ _ _ _ _ _ _ _ E) as [(_ & -> & -> & ->)|(_ & _ & _ & Hf & ->)].
    - cbn [zsum]; lia.
    - apply fail_all_sum in Hf. rewrite zsum_rev in Hf. cbn [hi_list].
      rewrite <- (firstn_skipn (Z.to_nat (ck_numBlocks c)) (hi_list hi)) at 2.
      rewrite zsum_app. lia.
  Qed.

  Definition gap (w : sender) : Z := zsum m (all_blocks w) - zsum tau (sn_stats w).
  Definition inject (a : sact) : Z := match a with ADiscover s => m (newSource s) | _ => 0 end.

  Lemma upd_gap w i q fl hi ts fa fl0 hi0 ts0 :
    nth_error (sn_flight w) i = Some fl0 -> nth_error (sn_hist w) i = Some hi0 ->
    nth_error (sn_stats w) i = Some ts0 ->
    gap (upd_thread w i q fl hi ts fa) - gap w =
      (zsum m q - zsum m (sn_queue w)) +
      (match fl with Some h => m h | None => 0 end - match fl0 with Some h => m h | None => 0 end) +
      (zsum m (hi_list hi) - zsum m (hi_list hi0)) + (zsum m fa - zsum m (sn_failed w)) -
      (tau ts - tau ts0).
  Proof.
    intros E1 E2 E3. unfold gap. rewrite !tot_expand. unfold upd_thread.
    cbn [sn_queue sn_flight sn_hist sn_stats sn_failed].
    rewrite (zsum_set _ _ _ _ fl E1), (zsum_set _ _ _ _ hi E2), (zsum_set _ _ _ _ ts E3). lia.
  Qed.

  Lemma apply_ckpt_gap w i fl hi ts c g w' :
    nth_error (sn_flight w) i = Some fl -> nth_error (sn_hist w) i = Some hi ->
    nth_error (sn_stats w) i = Some ts ->
    apply_ckpt w i fl (setCheckpoint hi ts c g) = Some (Ret w') -> gap w' = gap w.
  Proof.
    intros E1 E2 E3. destruct (setCheckpoint hi ts c g) as [[[[e hi'] ts'] ret]| |] eqn:Es;
      cbn [apply_ckpt]; intros E; try discriminate. injection E as <-.
    pose proof (upd_gap w i (sn_queue w ++ ret) fl hi' ts' (sn_failed w) _ _ _ E1 E2 E3) as G.
    apply setCheckpoint_sum in Es. rewrite zsum_app in G. lia.
  Qed.

  Lemma step_gap w a w' : sn_step w a = Some (Ret w') -> gap w' = gap w + inject a.
  Proof.
    destruct a as [s|i j b|i r|i c|i c|i|i|i e|i n]; cbn [sn_step inject]; unfold nthd.
    - intros E; injection E as <-. unfold gap. rewrite !tot_expand. cbn [sn_queue sn_flight sn_hist sn_stats sn_failed].
      rewrite zsum_app. cbn [zsum]. lia.
    - destruct (nth_error (sn_flight w) i) as [[h0|]|] eqn:E1; try discriminate.
      destruct (nth_error (sn_hist w) i) as [hi|] eqn:E2; try discriminate.
      destruct (nth_error (sn_stats w) i) as [ts|] eqn:E3; try discriminate.
      destruct (nth_error (sn_queue w) j) as [h|] eqn:E4; try discriminate.
      pose proof (H_open b h) as Ho. destruct (openSource b h) as [e h'] eqn:Eo. cbn [snd] in Ho.
      destruct (e =? OK); intros E; injection E as <-.
      + pose proof (upd_gap w i (remove_nth (sn_queue w) j) (Some h') hi ts (sn_failed w) _ _ _ E1 E2 E3) as G.
        unfold remove_nth in G at 2; rewrite (zsum_take_out m _ _ _ E4) in G. lia.
      + pose proof (upd_gap w i (remove_nth (sn_queue w) j) None hi ts (sn_failed w ++ [h']) _ _ _ E1 E2 E3) as G.
        unfold remove_nth in G at 2; rewrite (zsum_take_out m _ _ _ E4), zsum_app in G. cbn [zsum] in G. lia.
    - destruct (nth_error (sn_flight w) i) as [[h|]|] eqn:E1; try discriminate.
      destruct (nth_error (sn_hist w) i) as [hi|] eqn:E2; try discriminate.
      destruct (nth_error (sn_stats w) i) as [ts|] eqn:E3; try discriminate.
      pose proof (H_add h r ts) as Ha.
      unfold addSource. destruct (hi_global hi).
      + destruct (markSourceAsFailed (addTransferStats h (sendStats h r)) (hi_last hi)
                    (stats_add ts (sendStats h r))) as [h' ts'] eqn:Em.
        intros E; injection E as <-.
        match goal with |- gap (upd_thread _ _ ?q ?fl ?hi' ?ts' ?fa) = _ =>
          pose proof (upd_gap w i q fl hi' ts' fa _ _ _ E1 E2 E3) as G end.
        apply H_mark in Em. rewrite zsum_app in G. cbn [zsum hi_list] in G. lia.
      + intros E; injection E as <-.
        match goal with |- gap (upd_thread _ _ ?q ?fl ?hi' ?ts' ?fa) = _ =>
          pose proof (upd_gap w i q fl hi' ts' fa _ _ _ E1 E2 E3) as G end.
        cbn [hi_list] in G. rewrite !zsum_app in G. cbn [zsum] in G. lia.
    - destruct (nth_error (sn_flight w) i) as [[h0|]|] eqn:E1; try discriminate.
      destruct (nth_error (sn_hist w) i) as [hi|] eqn:E2; try discriminate.
      destruct (nth_error (sn_stats w) i) as [ts|] eqn:E3; try discriminate.
      intros E. rewrite (apply_ckpt_gap _ _ _ _ _ _ _ _ E1 E2 E3 E). lia.
    - destruct (nth_error (sn_flight w) i) as [fl|] eqn:E1; try discriminate.
      destruct (nth_error (sn_hist w) i) as [hi|] eqn:E2; try discriminate.
      destruct (nth_error (sn_stats w) i) as [ts|] eqn:E3; try discriminate.
      intros E. rewrite (apply_ckpt_gap _ _ _ _ _ _ _ _ E1 E2 E3 E). lia.
    - destruct (nth_error (sn_flight w) i) as [[h0|]|] eqn:E1; try discriminate.
      destruct (nth_error (sn_hist w) i) as [hi|] eqn:E2; try discriminate.
      destruct (nth_error (sn_stats w) i) as [ts|] eqn:E3; try discriminate.
      intros E. unfold returnUnacked in E. rewrite (apply_ckpt_gap _ _ _ _ _ _ _ _ E1 E2 E3 E). lia.
    - destruct (nth_error (sn_flight w) i) as [[h0|]|] eqn:E1; try discriminate.
      destruct (nth_error (sn_hist w) i) as [hi|] eqn:E2; try discriminate.
      destruct (nth_error (sn_stats w) i) as [ts|] eqn:E3; try discriminate.
      intros E; injection E as <-.
      match goal with |- gap (upd_thread _ _ ?q ?fl ?hi' ?ts' ?fa) = _ =>
        pose proof (upd_gap w i q fl hi' ts' fa _ _ _ E1 E2 E3) as G end.
      cbn [markAllAcknowledged hi_list] in G. lia.
    - destruct (nth_error (sn_flight w) i) as [fl|] eqn:E1; try discriminate.
      destruct (nth_error (sn_hist w) i) as [hi|] eqn:E2; try discriminate.
      destruct (nth_error (sn_stats w) i) as [ts|] eqn:E3; try discriminate.
      intros E; injection E as <-.
      match goal with |- gap (upd_thread _ _ ?q ?fl ?hi' ?ts' ?fa) = _ =>
        pose proof (upd_gap w i q fl hi' ts' fa _ _ _ E1 E2 E3) as G end.
      rewrite H_err in G. lia.
    - destruct (nth_error (sn_flight w) i) as [fl|] eqn:E1; try discriminate.
      destruct (nth_error (sn_hist w) i) as [hi|] eqn:E2; try discriminate.
      destruct (nth_error (sn_stats w) i) as [ts|] eqn:E3; try discriminate.
      intros E; injection E as <-.
      match goal with |- gap (upd_thread _ _ ?q ?fl ?hi' ?ts' ?fa) = _ =>
        pose proof (upd_gap w i q fl hi' ts' fa _ _ _ E1 E2 E3) as G end.
      rewrite H_hdr in G. lia.
  Qed.

  Lemma run_gap l : forall w w', sn_run w l = Some (Ret w') -> gap w' = gap w + zsum inject l.
  Proof.
    induction l as [|a l IH]; intros w w' E; cbn [sn_run] in E.
    { injection E as <-; cbn [zsum]; lia. }
    destruct (sn_step w a) as [[w1| |]|] eqn:Es; try discriminate.
    apply step_gap in Es. apply IH in E. cbn [zsum]. lia.
  Qed.
End Measure.

(** ** Totals *)
Definition counted (f : stats -> Z) : Prop := f = st_data \/ f = st_effData \/ f = st_blocks \/ f = st_failed.

Lemma counted_mark f : counted f -> forall h c ts h' ts', markSourceAsFailed h c ts = (h', ts') ->
  f (h_st h') - f (h_st h) = f ts' - f ts.
Proof.
  intros Hf h c ts h' ts' E. destruct (mark_spec _ _ _ _ _ E) as (_ & _ & _ & _ & Hw & Hn).
  destruct (sent_whole h); [destruct (Hw eq_refl) as [-> ->]|destruct (Hn eq_refl) as [-> ->]];
    destruct Hf as [-> | [-> | [-> | ->]]]; cbn; lia.
Qed.

Lemma counted_open f : counted f -> forall b h, f (h_st (snd (openSource b h))) = f (h_st h).
Proof.
  intros Hf b h; unfold openSource. destruct (_ =? _); [reflexivity|].
  destruct Hf as [-> | [-> | [-> | ->]]]; cbn; lia.
Qed.
Lemma counted_add f : counted f -> forall h r ts,
  f (h_st (addTransferStats h (sendStats h r))) - f (h_st h) = f (stats_add ts (sendStats h r)) - f ts.
Proof. intros Hf h r ts. destruct Hf as [-> | [-> | [-> | ->]]]; cbn; lia. Qed.
Lemma counted_err f : counted f -> forall ts e, f (setLocalErrorCode ts e) = f ts.
Proof. intros Hf ts e; destruct Hf as [-> | [-> | [-> | ->]]]; cbn; lia. Qed.
Lemma counted_hdr f : counted f -> forall ts n, f (addHeaderBytes ts n) = f ts.
Proof. intros Hf ts e; destruct Hf as [-> | [-> | [-> | ->]]]; cbn; lia. Qed.

Lemma totals_run n l w f : counted f -> sn_run (sender_init n) l = Some (Ret w) ->
  zsum f (sn_stats w) = zsum (fun h => f (h_st h)) (all_blocks w).
Proof.
  intros Hf E.
  assert (G : gap (fun h => f (h_st h)) f w = gap (fun h => f (h_st h)) f (sender_init n)
                + zsum (inject (fun h => f (h_st h))) l).
  { eapply run_gap; [apply counted_open, Hf|apply counted_add, Hf|apply counted_mark, Hf|
      apply counted_err, Hf|apply counted_hdr, Hf|exact E]. }
  assert (G0 : gap (fun h => f (h_st h)) f (sender_init n) = 0).
  { unfold gap. rewrite tot_expand. cbn [sender_init sn_queue sn_flight sn_hist sn_stats sn_failed zsum].
    rewrite !zsum_repeat. cbn [history_new hi_list zsum].
    destruct Hf as [-> | [-> | [-> | ->]]]; cbn; lia. }
  assert (G1 : zsum (inject (fun h => f (h_st h))) l = 0).
  { clear -Hf. induction l as [|a l IH]; [reflexivity|]. cbn [zsum]. rewrite IH.
    destruct a; cbn [inject]; try lia. destruct Hf as [-> | [-> | [-> | ->]]]; cbn; lia. }
  unfold gap at 1 in G. lia.
Qed.

(** ** No block is lost or duplicated *)
Definition ident_eq_dec : forall a b : list Z * Z * Z * Z, {a = b} + {a <> b}.
Proof. intros a b. repeat decide equality. Defined.

Lemma perm_from_sums (l l' : list (list Z * Z * Z * Z)) :
  (forall x, zsum (fun y => if ident_eq_dec y x then 1 else 0) l =
             zsum (fun y => if ident_eq_dec y x then 1 else 0) l') -> Permutation l l'.
Proof.
  intros H. rewrite (Permutation_count_occ ident_eq_dec). intros x. specialize (H x).
  assert (C : forall k, zsum (fun y => if ident_eq_dec y x then 1 else 0) k = Z.of_nat (count_occ ident_eq_dec k x)).
  { induction k as [|a k IH]; [reflexivity|]. cbn [zsum count_occ].
    destruct (ident_eq_dec a x); rewrite IH; lia. }
  rewrite !C in H. lia.
Qed.

Lemma mark_ident h c ts h' ts' : markSourceAsFailed h c ts = (h', ts') -> ident h' = ident h.
Proof.
  intros E. destruct (mark_spec _ _ _ _ _ E) as ((H1 & H2 & _) & H3 & H4 & _).
  unfold ident. rewrite H1, H2, H3, H4. reflexivity.
Qed.

Lemma blocks_conserved l w w' : sn_run w l = Some (Ret w') ->
  Permutation (map ident (all_blocks w')) (map ident (all_blocks w) ++ discovered l).
Proof.
  intros E. apply perm_from_sums. intros x. rewrite zsum_app, !zsum_map.
  set (m := fun h => if ident_eq_dec (ident h) x then 1 else 0).
  assert (G : gap m (fun _ => 0) w' = gap m (fun _ => 0) w + zsum (inject m) l).
  { eapply run_gap; [| | | | |exact E]; try reflexivity.
    - intros b h. unfold openSource. destruct (_ =? _); reflexivity.
    - intros h r ts. unfold m. change (ident (addTransferStats h (sendStats h r))) with (ident h). lia.
    - intros h c ts h' ts' Em. unfold m. rewrite (mark_ident _ _ _ _ _ Em). lia. }
  unfold gap in G.
  assert (Z0 : forall A (k : list A), zsum (fun _ => 0) k = 0)
    by (intros A k; induction k as [|a k IH]; [reflexivity|cbn [zsum]; lia]).
  rewrite !Z0 in G.
  assert (D : zsum (inject m) l = zsum (fun y => if ident_eq_dec y x then 1 else 0) (discovered l)).
  { clear. induction l as [|a l IH]; [reflexivity|].
    destruct a; cbn [zsum discovered inject]; try (rewrite IH; lia).
    rewrite IH. reflexivity. }
  lia.
Qed.

(** ** What each block's statistics say *)
Definition geom (h : hsrc) : Prop := s_offset (h_src h) + s_size (h_src h) = h_o h + h_n h.
Definition fileb (h : hsrc) : Prop := s_alloc (h_src h) <> TO_BE_DELETED.
Definition okQ (h : hsrc) : Prop :=
  geom h /\ fileb h /\ st_effData (h_st h) = s_offset (h_src h) - h_o h /\ st_blocks (h_st h) = 0 /\
  st_effHdr (h_st h) = 0 /\ st_blocksSend (h_st h) = -1 /\ st_senderBytes (h_st h) = -1.
Definition okF (h : hsrc) : Prop := okQ h /\ st_local (h_st h) = OK.
Definition okH (h : hsrc) : Prop :=
  if sent_whole h
  then geom h /\ fileb h /\ st_effData (h_st h) = h_n h /\ st_blocks (h_st h) = 1 /\
       st_blocksSend (h_st h) = -1 /\ st_senderBytes (h_st h) = -1
  else okQ h.
Definition okW (w : sender) : Prop :=
  Forall okQ (sn_queue w) /\
  Forall (fun o => match o with Some h => okF h | None => True end) (sn_flight w) /\
  Forall (fun hi => Forall okH (hi_list hi)) (sn_hist w) /\
  Forall okQ (sn_failed w).

Lemma Forall_set {A} (P : A -> Prop) l i x : Forall P l -> P x -> Forall P (set_nth l i x).
Proof.
  intros H Hx. apply Forall_forall. intros t Ht. destruct (in_set_nth _ _ _ _ Ht) as [->|Hi]; [exact Hx|].
  rewrite Forall_forall in H. apply H, Hi.
Qed.
Lemma Forall_nth_error {A} (P : A -> Prop) l i x : Forall P l -> nth_error l i = Some x -> P x.
Proof. intros H E. rewrite Forall_forall in H. eapply H, nth_error_In, E. Qed.
Lemma Forall_firstn' {A} (P : A -> Prop) n l : Forall P l -> Forall P (firstn n l).
Proof. intros H. rewrite <- (firstn_skipn n l) in H. apply Forall_app in H. tauto. Qed.
Lemma Forall_skipn' {A} (P : A -> Prop) n l : Forall P l -> Forall P (skipn n l).
Proof. intros H. rewrite <- (firstn_skipn n l) in H. apply Forall_app in H. tauto. Qed.

Lemma Forall_remove {A} (P : A -> Prop) l j : Forall P l -> Forall P (remove_nth l j).
Proof. intros H. apply Forall_app; split; [apply Forall_firstn', H|apply Forall_skipn', H]. Qed.

Lemma mark_okH h c ts h' ts' : okH h -> markSourceAsFailed h c ts = (h', ts') -> okQ h'.
Proof.
  intros Hh E. destruct (mark_spec _ _ _ _ _ E) as (Hs & Ho & Hn & _ & Hw & Hnw).
  unfold shortened in Hs. destruct Hs as (_ & _ & _ & Ha & _ & Hoff & Hsz).
  unfold okH in Hh. destruct (sent_whole h).
  - destruct (Hw eq_refl) as [Es _]. destruct Hh as (G & F & Ed & B & X1 & X2).
    unfold okQ, geom, fileb in *. rewrite Es, Ha, Ho, Hn, Hoff, Hsz. cbn.
    split; [lia|split; [exact F|split; [lia|split; [lia|split; [lia|split; assumption]]]]].
  - destruct (Hnw eq_refl) as [Es _]. destruct Hh as (G & F & Ed & B & X0 & X1 & X2).
    unfold okQ, geom, fileb in *. rewrite Es, Ha, Ho, Hn, Hoff, Hsz. cbn.
    split; [lia|split; [exact F|split; [lia|split; [lia|split; [lia|split; assumption]]]]].
Qed.

Lemma fail_all_ok l c : forall ts ret ts', Forall okH l -> fail_all l c ts = (ret, ts') -> Forall okQ ret.
Proof.
  induction l as [|h l IH]; intros ts ret ts' H E; cbn [fail_all] in E.
  { injection E as <- <-; constructor. }
  destruct (markSourceAsFailed h _ ts) as [h' ts1] eqn:Em.
  destruct (fail_all l c ts1) as [l' ts2] eqn:Ef. injection E as <- <-.
  inversion H; subst. constructor; [eapply mark_okH; eassumption|eapply IH; eassumption].
Qed.

Lemma setCheckpoint_ok hi ts c g e hi' ts' ret : Forall okH (hi_list hi) ->
  setCheckpoint hi ts c g = Ret (e, hi', ts', ret) -> Forall okH (hi_list hi') /\ Forall okQ ret.
Proof.
  intros H E. destruct (setCheckpoint_inv _ _ _ _ _ _ _ _ E) as [(_ & -> & _ & ->)|(_ & _ & _ & Hf & ->)].
  - split; [exact H|constructor].
  - cbn [hi_list]. split; [apply Forall_firstn', H|].
    eapply fail_all_ok; [|exact Hf]. apply Forall_rev, Forall_skipn', H.
Qed.

Lemma add_okF h r : okF h -> okH (addTransferStats h (sendStats h r)) /\
  sent_whole (addTransferStats h (sendStats h r)) = match r with SentAll _ => true | _ => false end.
Proof.
  intros ((G & F & Ed & B & X0 & X1 & X2) & L).
  assert (W : sent_whole (addTransferStats h (sendStats h r)) = match r with SentAll _ => true | _ => false end).
  { unfold sent_whole, addTransferStats, set_st, stats_add. cbn [h_st st_local].
    rewrite X1, X2, L. destruct r as [hdr|[] hdr data]; reflexivity. }
  split; [|exact W]. unfold okH. rewrite W. unfold geom, okQ, fileb, geom in *.
  destruct r as [hdr|code hdr data]; cbn; rewrite X1, X2; cbn.
  - split; [lia|split; [exact F|split; [lia|split; [lia|split; reflexivity]]]].
  - split; [lia|split; [exact F|split; [lia|split; [lia|split; [lia|split; reflexivity]]]]].
Qed.

Lemma apply_ckpt_ok w i fl hi ts c g w' : okW w ->
  nth_error (sn_flight w) i = Some fl -> nth_error (sn_hist w) i = Some hi ->
  apply_ckpt w i fl (setCheckpoint hi ts c g) = Some (Ret w') -> okW w'.
Proof.
  intros (Q & F & H & X) E1 E2. destruct (setCheckpoint hi ts c g) as [[[[e hi'] ts'] ret]| |] eqn:Es;
    cbn [apply_ckpt]; intros E; try discriminate. injection E as <-.
  assert (Hh : Forall okH (hi_list hi)) by (exact (Forall_nth_error _ _ _ _ H E2)).
  destruct (setCheckpoint_ok _ _ _ _ _ _ _ _ Hh Es) as [A B].
  unfold okW, upd_thread; cbn [sn_queue sn_flight sn_hist sn_stats sn_failed].
  split; [apply Forall_app; split; assumption|split; [|split; [|exact X]]].
  - apply Forall_set; [exact F|exact (Forall_nth_error _ _ _ _ F E1)].
  - apply Forall_set; [exact H|exact A].
Qed.

Lemma step_ok w a w' : okW w -> (forall s, a = ADiscover s -> s_alloc s <> TO_BE_DELETED) ->
  sn_step w a = Some (Ret w') -> okW w'.
Proof.
  intros HW Hd. pose proof HW as (Q & F & H & X).
  destruct a as [s|i j b|i r|i c|i c|i|i|i e|i n]; cbn [sn_step]; unfold nthd.
  - intros E; injection E as <-. unfold okW; cbn [sn_queue sn_flight sn_hist sn_stats sn_failed].
    split; [|split; [exact F|split; [exact H|exact X]]]. apply Forall_app; split; [exact Q|].
    constructor; [|constructor]. unfold okQ, geom, fileb; cbn.
    split; [reflexivity|split; [apply Hd; reflexivity|repeat split; lia]].
  - destruct (nth_error (sn_flight w) i) as [[h0|]|] eqn:E1; try discriminate.
    destruct (nth_error (sn_hist w) i) as [hi|] eqn:E2; try discriminate.
    destruct (nth_error (sn_stats w) i) as [ts|] eqn:E3; try discriminate.
    destruct (nth_error (sn_queue w) j) as [h|] eqn:E4; try discriminate.
    pose proof (Forall_nth_error _ _ _ _ Q E4) as (G & Fi & Ed & B & X0 & X1 & X2).
    assert (R : Forall okQ (remove_nth (sn_queue w) j)) by (apply Forall_remove, Q).
    pose proof (Forall_nth_error _ _ _ _ H E2) as Hh.
    unfold openSource, fileb in *. apply Z.eqb_neq in Fi. rewrite Fi. apply Z.eqb_neq in Fi.
    destruct b; cbn [OK Z.eqb]; intros E; injection E as <-;
      unfold okW, upd_thread; cbn [sn_queue sn_flight sn_hist sn_stats sn_failed].
    + split; [exact R|split; [|split; [apply Forall_set; [exact H|exact Hh]|exact X]]].
      apply Forall_set; [exact F|]. unfold okF, okQ, geom, fileb in *; cbn.
      split; [|reflexivity]. split; [exact G|split; [exact Fi|split; [lia|split; [lia|split; [lia|split; assumption]]]]].
    + split; [exact R|split; [|split; [apply Forall_set; [exact H|exact Hh]|]]].
      * apply Forall_set; [exact F|exact I].
      * apply Forall_app; split; [exact X|constructor; [|constructor]].
        unfold okQ, geom, fileb in *; cbn.
        split; [exact G|split; [exact Fi|split; [lia|split; [lia|split; [lia|split; assumption]]]]].
  - destruct (nth_error (sn_flight w) i) as [[h|]|] eqn:E1; try discriminate.
    destruct (nth_error (sn_hist w) i) as [hi|] eqn:E2; try discriminate.
    destruct (nth_error (sn_stats w) i) as [ts|] eqn:E3; try discriminate.
    pose proof (Forall_nth_error _ _ _ _ F E1) as Hf. cbn beta iota in Hf.
    pose proof (Forall_nth_error _ _ _ _ H E2) as Hh.
    destruct (add_okF h r Hf) as [Ha _].
    unfold addSource. destruct (hi_global hi).
    + destruct (markSourceAsFailed _ (hi_last hi) _) as [h' ts'] eqn:Em.
      intros E; injection E as <-. apply (mark_okH _ _ _ _ _ Ha) in Em.
      unfold okW, upd_thread; cbn [sn_queue sn_flight sn_hist sn_stats sn_failed].
      split; [apply Forall_app; split; [exact Q|constructor; [exact Em|constructor]]|].
      split; [apply Forall_set; [exact F|exact I]|split; [|exact X]].
      apply Forall_set; [exact H|exact Hh].
    + intros E; injection E as <-.
      unfold okW, upd_thread; cbn [sn_queue sn_flight sn_hist sn_stats sn_failed].
      rewrite app_nil_r. split; [exact Q|].
      split; [apply Forall_set; [exact F|exact I]|split; [|exact X]].
      apply Forall_set; [exact H|]. cbn [hi_list]. apply Forall_app; split; [exact Hh|constructor; [exact Ha|constructor]].
  - destruct (nth_error (sn_flight w) i) as [[h0|]|] eqn:E1; try discriminate.
    destruct (nth_error (sn_hist w) i) as [hi|] eqn:E2; try discriminate.
    destruct (nth_error (sn_stats w) i) as [ts|] eqn:E3; try discriminate.
    apply apply_ckpt_ok; assumption.
  - destruct (nth_error (sn_flight w) i) as [fl|] eqn:E1; try discriminate.
    destruct (nth_error (sn_hist w) i) as [hi|] eqn:E2; try discriminate.
    destruct (nth_error (sn_stats w) i) as [ts|] eqn:E3; try discriminate.
    apply apply_ckpt_ok; assumption.
  - destruct (nth_error (sn_flight w) i) as [[h0|]|] eqn:E1; try discriminate.
    destruct (nth_error (sn_hist w) i) as [hi|] eqn:E2; try discriminate.
    destruct (nth_error (sn_stats w) i) as [ts|] eqn:E3; try discriminate.
    apply apply_ckpt_ok; assumption.
  - destruct (nth_error (sn_flight w) i) as [[h0|]|] eqn:E1; try discriminate.
    destruct (nth_error (sn_hist w) i) as [hi|] eqn:E2; try discriminate.
    destruct (nth_error (sn_stats w) i) as [ts|] eqn:E3; try discriminate.
    intros E; injection E as <-.
    unfold okW, upd_thread; cbn [sn_queue sn_flight sn_hist sn_stats sn_failed].
    split; [exact Q|split; [apply Forall_set; [exact F|exact I]|split; [|exact X]]].
    apply Forall_set; [exact H|exact (Forall_nth_error _ _ _ _ H E2)].
  - destruct (nth_error (sn_flight w) i) as [fl|] eqn:E1; try discriminate.
    destruct (nth_error (sn_hist w) i) as [hi|] eqn:E2; try discriminate.
    destruct (nth_error (sn_stats w) i) as [ts|] eqn:E3; try discriminate.
    intros E; injection E as <-.
    unfold okW, upd_thread; cbn [sn_queue sn_flight sn_hist sn_stats sn_failed].
    split; [exact Q|split; [|split; [|exact X]]].
    + apply Forall_set; [exact F|exact (Forall_nth_error _ _ _ _ F E1)].
    + apply Forall_set; [exact H|exact (Forall_nth_error _ _ _ _ H E2)].
  - destruct (nth_error (sn_flight w) i) as [fl|] eqn:E1; try discriminate.
    destruct (nth_error (sn_hist w) i) as [hi|] eqn:E2; try discriminate.
    destruct (nth_error (sn_stats w) i) as [ts|] eqn:E3; try discriminate.
    intros E; injection E as <-.
    unfold okW, upd_thread; cbn [sn_queue sn_flight sn_hist sn_stats sn_failed].
    split; [exact Q|split; [|split; [|exact X]]].
    + apply Forall_set; [exact F|exact (Forall_nth_error _ _ _ _ F E1)].
    + apply Forall_set; [exact H|exact (Forall_nth_error _ _ _ _ H E2)].
Qed.

Lemma init_ok n : okW (sender_init n).
Proof.
  unfold okW, sender_init; cbn [sn_queue sn_flight sn_hist sn_stats sn_failed].
  split; [constructor|split; [|split; [|constructor]]]; apply Forall_forall; intros x Hx;
    apply repeat_spec in Hx; subst x; [exact I|constructor].
Qed.

Lemma run_ok l : forall w w', okW w -> files_only l -> sn_run w l = Some (Ret w') -> okW w'.
Proof.
  induction l as [|a l IH]; intros w w' H Hf E; cbn [sn_run] in E.
  { injection E as <-; exact H. }
  destruct (sn_step w a) as [[w1| |]|] eqn:Es; try discriminate.
  eapply IH; [|intros s Hs; apply Hf; right; exact Hs|exact E].
  eapply step_ok; [exact H| |exact Es]. intros s ->. apply Hf; left; reflexivity.
Qed.

(** ** Effective bytes of one thread *)
Definition off (h : hsrc) : Z := s_offset (h_src h).
Definition whole_bytes (l : list hsrc) : Z := zsum (fun h => s_size (h_src h)) (filter sent_whole l).

Lemma whole_app a b : whole_bytes (a ++ b) = whole_bytes a + whole_bytes b.
Proof. unfold whole_bytes. rewrite filter_app, zsum_app. reflexivity. Qed.
Lemma whole_one h : whole_bytes [h] = if sent_whole h then s_size (h_src h) else 0.
Proof. unfold whole_bytes; cbn [filter]. destruct (sent_whole h); cbn [zsum]; lia. Qed.
Lemma whole_rev l : whole_bytes (rev l) = whole_bytes l.
Proof. induction l as [|h l IH]; [reflexivity|]. cbn [rev]. rewrite whole_app, IH.
  change (h :: l) with ([h] ++ l). rewrite whole_app. lia. Qed.

Lemma mark_eff h c ts h' ts' : markSourceAsFailed h c ts = (h', ts') ->
  off h' - off h - (if sent_whole h then s_size (h_src h) else 0) = st_effData ts' - st_effData ts.
Proof.
  intros E. destruct (mark_spec _ _ _ _ _ E) as (Hs & _ & _ & _ & Hw & Hn).
  destruct Hs as (_ & _ & _ & _ & _ & Ho & _). unfold off. rewrite Ho.
  destruct (sent_whole h); [destruct (Hw eq_refl) as [_ ->]|destruct (Hn eq_refl) as [_ ->]]; cbn; lia.
Qed.

Lemma fail_all_eff l c : forall ts ret ts', fail_all l c ts = (ret, ts') ->
  zsum off ret - zsum off l - whole_bytes l = st_effData ts' - st_effData ts.
Proof.
  induction l as [|h l IH]; intros ts ret ts' E; cbn [fail_all] in E.
  { injection E as <- <-; cbn; lia. }
  destruct (markSourceAsFailed h _ ts) as [h' ts1] eqn:Em.
  destruct (fail_all l c ts1) as [l' ts2] eqn:Ef. injection E as <- <-.
  apply mark_eff in Em. specialize (IH _ _ _ Ef). cbn [zsum].
  change (h :: l) with ([h] ++ l). rewrite whole_app, whole_one. lia.
Qed.

Lemma setCheckpoint_eff hi ts c g e hi' ts' ret :
  setCheckpoint hi ts c g = Ret (e, hi', ts', ret) ->
  zsum off ret + zsum off (hi_list hi') - zsum off (hi_list hi)
    + whole_bytes (hi_list hi') - whole_bytes (hi_list hi) = st_effData ts' - st_effData ts.
Proof.
  intros E. destruct (setCheckpoint_inv _ _ _ _ _ _ _ _ E) as [(_ & -> & -> & ->)|(_ & _ & _ & Hf & ->)].
  - cbn [zsum]; lia.
  - apply fail_all_eff in Hf. rewrite zsum_rev, whole_rev in Hf. cbn [hi_list].
    rewrite <- (firstn_skipn (Z.to_nat (ck_numBlocks c)) (hi_list hi)) at 2 4.
    rewrite zsum_app, whole_app. lia.
Qed.

Lemma upd_starts w i q fl hi ts fa fl0 hi0 :
  nth_error (sn_flight w) i = Some fl0 -> nth_error (sn_hist w) i = Some hi0 ->
  starts (upd_thread w i q fl hi ts fa) - starts w =
    (zsum off q - zsum off (sn_queue w)) +
    (match fl with Some h => off h | None => 0 end - match fl0 with Some h => off h | None => 0 end) +
    (zsum off (hi_list hi) - zsum off (hi_list hi0)) + (zsum off fa - zsum off (sn_failed w)).
Proof.
  intros E1 E2. unfold starts. fold off. rewrite !tot_expand. unfold upd_thread.
  cbn [sn_queue sn_flight sn_hist sn_stats sn_failed].
  rewrite (zsum_set _ _ _ _ fl E1), (zsum_set _ _ _ _ hi E2). unfold off. lia.
Qed.

Definition dif (i : nat) (w : sender) : Z := effective i w - sent_bytes i w.

Lemma upd_dif w i q fl hi ts fa hi0 ts0 k :
  nth_error (sn_hist w) i = Some hi0 -> nth_error (sn_stats w) i = Some ts0 ->
  dif k (upd_thread w i q fl hi ts fa) =
    if Nat.eqb k i then st_effData ts - whole_bytes (hi_list hi) else dif k w.
Proof.
  intros E1 E2. unfold dif, effective, sent_bytes, upd_thread; cbn [sn_hist sn_stats].
  destruct (Nat.eqb_spec k i) as [->|Hk].
  - rewrite (nth_set_same _ _ _ _ E1), (nth_set_same _ _ _ _ E2). reflexivity.
  - rewrite !nth_set_other by (intro X; apply Hk; symmetry; exact X). reflexivity.
Qed.

Lemma dif_here w i hi ts : nth_error (sn_hist w) i = Some hi -> nth_error (sn_stats w) i = Some ts ->
  dif i w = st_effData ts - whole_bytes (hi_list hi).
Proof. intros E1 E2. unfold dif, effective, sent_bytes. rewrite E1, E2. reflexivity. Qed.

Definition mine (k : nat) (a : sact) : bool := match thread_of a with Some j => Nat.eqb k j | None => false end.

Lemma apply_ckpt_dif w i fl hi ts c g w' k :
  nth_error (sn_flight w) i = Some fl -> nth_error (sn_hist w) i = Some hi ->
  nth_error (sn_stats w) i = Some ts ->
  apply_ckpt w i fl (setCheckpoint hi ts c g) = Some (Ret w') ->
  dif k w' = dif k w + if Nat.eqb k i then starts w' - starts w else 0.
Proof.
  intros E1 E2 E3. destruct (setCheckpoint hi ts c g) as [[[[e hi'] ts'] ret]| |] eqn:Es;
    cbn [apply_ckpt]; intros E; try discriminate. injection E as <-.
  rewrite (upd_dif w i _ fl hi' ts' _ _ _ k E2 E3), (upd_starts w i _ fl hi' ts' _ _ _ E1 E2).
  destruct (Nat.eqb_spec k i) as [->|Hk]; [|lia].
  rewrite (dif_here _ _ _ _ E2 E3). apply setCheckpoint_eff in Es. rewrite zsum_app. lia.
Qed.

Lemma step_dif w a w' k : okW w -> sn_step w a = Some (Ret w') ->
  dif k w' = dif k w + if mine k a then starts w' - starts w else 0.
Proof.
  intros HW. pose proof HW as (Q & F & H & X). unfold mine.
  destruct a as [s|i j b|i r|i c|i c|i|i|i e|i n]; cbn [sn_step thread_of]; unfold nthd.
  - intros E; injection E as <-. unfold dif, effective, sent_bytes; cbn [sn_hist sn_stats]. lia.
  - destruct (nth_error (sn_flight w) i) as [[h0|]|] eqn:E1; try discriminate.
    destruct (nth_error (sn_hist w) i) as [hi|] eqn:E2; try discriminate.
    destruct (nth_error (sn_stats w) i) as [ts|] eqn:E3; try discriminate.
    destruct (nth_error (sn_queue w) j) as [h|] eqn:E4; try discriminate.
    destruct (openSource b h) as [e h'] eqn:Eo.
    assert (Ho : off h' = off h).
    { unfold openSource in Eo. destruct (_ =? _); injection Eo as <- <-; reflexivity. }
    assert (R : zsum off (remove_nth (sn_queue w) j) = zsum off (sn_queue w) - off h)
      by (apply zsum_take_out; exact E4).
    destruct (e =? OK); intros E; injection E as <-;
      rewrite (upd_dif w i _ _ hi ts _ _ _ k E2 E3), (upd_starts w i _ _ hi ts _ _ _ E1 E2);
      destruct (Nat.eqb_spec k i) as [->|Hk]; try lia;
      rewrite (dif_here _ _ _ _ E2 E3); try rewrite zsum_app; cbn [zsum]; lia.
  - destruct (nth_error (sn_flight w) i) as [[h|]|] eqn:E1; try discriminate.
    destruct (nth_error (sn_hist w) i) as [hi|] eqn:E2; try discriminate.
    destruct (nth_error (sn_stats w) i) as [ts|] eqn:E3; try discriminate.
    pose proof (Forall_nth_error _ _ _ _ F E1) as Hf. cbn beta iota in Hf.
    destruct (add_okF h r Hf) as [_ Hw].
    assert (Hts : st_effData (stats_add ts (sendStats h r)) =
                  st_effData ts + match r with SentAll _ => s_size (h_src h) | _ => 0 end)
      by (destruct r; cbn; lia).
    unfold addSource. destruct (hi_global hi).
    + destruct (markSourceAsFailed _ (hi_last hi) _) as [h' ts'] eqn:Em.
      intros E; injection E as <-.
      rewrite (upd_dif w i _ _ _ _ _ _ _ k E2 E3), (upd_starts w i _ _ _ _ _ _ _ E1 E2).
      destruct (Nat.eqb_spec k i) as [->|Hk]; [|lia].
      rewrite (dif_here _ _ _ _ E2 E3). apply mark_eff in Em. rewrite Hw, Hts in Em.
      change (off (addTransferStats h (sendStats h r))) with (off h) in Em.
      change (s_size (h_src (addTransferStats h (sendStats h r)))) with (s_size (h_src h)) in Em.
      rewrite zsum_app. cbn [hi_list zsum]. destruct r; lia.
    + intros E; injection E as <-.
      rewrite (upd_dif w i _ _ _ _ _ _ _ k E2 E3), (upd_starts w i _ _ _ _ _ _ _ E1 E2).
      destruct (Nat.eqb_spec k i) as [->|Hk]; [|lia].
      rewrite (dif_here _ _ _ _ E2 E3). cbn [hi_list]. rewrite whole_app, whole_one, Hw, Hts, !zsum_app.
      cbn [zsum].
      change (off (addTransferStats h (sendStats h r))) with (off h).
      change (s_size (h_src (addTransferStats h (sendStats h r)))) with (s_size (h_src h)).
      destruct r; lia.
  - destruct (nth_error (sn_flight w) i) as [[h0|]|] eqn:E1; try discriminate.
    destruct (nth_error (sn_hist w) i) as [hi|] eqn:E2; try discriminate.
    destruct (nth_error (sn_stats w) i) as [ts|] eqn:E3; try discriminate.
    apply apply_ckpt_dif; assumption.
  - destruct (nth_error (sn_flight w) i) as [fl|] eqn:E1; try discriminate.
    destruct (nth_error (sn_hist w) i) as [hi|] eqn:E2; try discriminate.
    destruct (nth_error (sn_stats w) i) as [ts|] eqn:E3; try discriminate.
    apply apply_ckpt_dif; assumption.
  - destruct (nth_error (sn_flight w) i) as [[h0|]|] eqn:E1; try discriminate.
    destruct (nth_error (sn_hist w) i) as [hi|] eqn:E2; try discriminate.
    destruct (nth_error (sn_stats w) i) as [ts|] eqn:E3; try discriminate.
    apply apply_ckpt_dif; assumption.
  - destruct (nth_error (sn_flight w) i) as [[h0|]|] eqn:E1; try discriminate.
    destruct (nth_error (sn_hist w) i) as [hi|] eqn:E2; try discriminate.
    destruct (nth_error (sn_stats w) i) as [ts|] eqn:E3; try discriminate.
    intros E; injection E as <-.
    rewrite (upd_dif w i _ _ _ _ _ _ _ k E2 E3), (upd_starts w i _ _ _ _ _ _ _ E1 E2).
    destruct (Nat.eqb_spec k i) as [->|Hk]; [|lia].
    rewrite (dif_here _ _ _ _ E2 E3). cbn [markAllAcknowledged hi_list]. lia.
  - destruct (nth_error (sn_flight w) i) as [fl|] eqn:E1; try discriminate.
    destruct (nth_error (sn_hist w) i) as [hi|] eqn:E2; try discriminate.
    destruct (nth_error (sn_stats w) i) as [ts|] eqn:E3; try discriminate.
    intros E; injection E as <-.
    rewrite (upd_dif w i _ _ _ _ _ _ _ k E2 E3), (upd_starts w i _ _ _ _ _ _ _ E1 E2).
    destruct (Nat.eqb_spec k i) as [->|Hk]; [|lia].
    rewrite (dif_here _ _ _ _ E2 E3). cbn. lia.
  - destruct (nth_error (sn_flight w) i) as [fl|] eqn:E1; try discriminate.
    destruct (nth_error (sn_hist w) i) as [hi|] eqn:E2; try discriminate.
    destruct (nth_error (sn_stats w) i) as [ts|] eqn:E3; try discriminate.
    intros E; injection E as <-.
    rewrite (upd_dif w i _ _ _ _ _ _ _ k E2 E3), (upd_starts w i _ _ _ _ _ _ _ E1 E2).
    destruct (Nat.eqb_spec k i) as [->|Hk]; [|lia].
    rewrite (dif_here _ _ _ _ E2 E3). cbn. lia.
Qed.

Lemma run_dif l : forall w w' k, okW w -> files_only l -> sn_run w l = Some (Ret w') ->
  dif k w' = dif k w + partial_bytes k w l.
Proof.
  induction l as [|a l IH]; intros w w' k HW Hf E; cbn [sn_run partial_bytes] in *.
  { injection E as <-; lia. }
  destruct (sn_step w a) as [[w1| |]|] eqn:Es; try discriminate.
  assert (H1 : okW w1).
  { eapply step_ok; [exact HW| |exact Es]. intros s ->. apply Hf; left; reflexivity. }
  rewrite (IH w1 w' k H1 (fun s Hs => Hf s (or_intror Hs)) E).
  rewrite (step_dif _ _ _ k HW Es). unfold mine. lia.
Qed.

Lemma thread_effective n l w i : files_only l -> sn_run (sender_init n) l = Some (Ret w) ->
  effective i w = sent_bytes i w + partial_bytes i (sender_init n) l.
Proof.
  intros Hf E. pose proof (run_dif _ _ _ i (init_ok n) Hf E) as D.
  assert (D0 : dif i (sender_init n) = 0).
  { unfold dif, effective, sent_bytes, sender_init; cbn [sn_hist sn_stats].
    destruct (nth_error (repeat stats_new n) i) as [t|] eqn:E1.
    - apply nth_error_In, repeat_spec in E1. subst t.
      destruct (nth_error (repeat history_new n) i) as [hi|] eqn:E2; [|reflexivity].
      apply nth_error_In, repeat_spec in E2. subst hi. reflexivity.
    - destruct (nth_error (repeat history_new n) i) as [hi|] eqn:E2; [|reflexivity].
      apply nth_error_In, repeat_spec in E2. subst hi. reflexivity. }
  unfold dif at 1 in D. lia.
Qed.

(** ** When all bytes are accounted for, everything was sent *)
Lemma in_all w h : In h (all_blocks w) <->
  In h (sn_queue w) \/ In (Some h) (sn_flight w) \/ in_history w h \/ In h (sn_failed w).
Proof.
  unfold all_blocks, flights, in_history. rewrite !in_app_iff, !in_flat_map. split.
  - intros [?|[([x|] & Hx & Hi)|[?|?]]]; [tauto| |contradiction|tauto|tauto].
    destruct Hi as [->|[]]. tauto.
  - intros [?|[?|[?|?]]]; [tauto| |tauto|tauto]. right; left. exists (Some h). split; [assumption|left; reflexivity].
Qed.

Lemma block_effective n l w h : files_only l -> sn_run (sender_init n) l = Some (Ret w) ->
  In h (all_blocks w) ->
  s_offset (h_src h) + s_size (h_src h) = h_o h + h_n h /\
  st_effData (h_st h) =
    (if st_blocks (h_st h) =? 1 then h_n h else s_offset (h_src h) - h_o h) /\
  (st_blocks (h_st h) = 1 -> in_history w h /\ sent_whole h = true) /\
  (in_history w h -> sent_whole h = true -> st_blocks (h_st h) = 1) /\
  (st_blocks (h_st h) = 0 \/ st_blocks (h_st h) = 1).
Proof.
  intros Hf E Hi. destruct (run_ok _ _ _ (init_ok n) Hf E) as (Q & F & H & X).
  rewrite Forall_forall in Q, F, H, X.
  assert (K : forall P : Prop, okQ h -> (in_history w h -> sent_whole h = true -> st_blocks (h_st h) = 1) ->
     s_offset (h_src h) + s_size (h_src h) = h_o h + h_n h /\
     st_effData (h_st h) = (if st_blocks (h_st h) =? 1 then h_n h else s_offset (h_src h) - h_o h) /\
     (st_blocks (h_st h) = 1 -> in_history w h /\ sent_whole h = true) /\
     (in_history w h -> sent_whole h = true -> st_blocks (h_st h) = 1) /\
     (st_blocks (h_st h) = 0 \/ st_blocks (h_st h) = 1)).
  { intros _ (G & _ & Ed & B & _) HH. rewrite B in *. split; [exact G|split; [exact Ed|split; [discriminate|split; [exact HH|left; reflexivity]]]]. }
  assert (HH : in_history w h -> sent_whole h = true -> st_blocks (h_st h) = 1).
  { intros (hi & H1 & H2) Hw. specialize (H _ H1). rewrite Forall_forall in H. specialize (H _ H2).
    unfold okH in H. rewrite Hw in H. tauto. }
  apply in_all in Hi. destruct Hi as [Hi|[Hi|[Hi|Hi]]].
  - apply (K True); [apply Q, Hi|exact HH].
  - specialize (F _ Hi). cbn beta iota in F. apply (K True); [apply F|exact HH].
  - pose proof Hi as (hi & H1 & H2). specialize (H _ H1). rewrite Forall_forall in H. specialize (H _ H2).
    unfold okH in H. destruct (sent_whole h) eqn:Ew.
    + destruct H as (G & _ & Ed & B & _). rewrite B in *.
      split; [exact G|split; [exact Ed|split; [intros _; split; [exact Hi|reflexivity]|split; [intros _ _; reflexivity|right; reflexivity]]]].
    + apply (K True); [exact H|]. intros _ Hc; discriminate.
  - apply (K True); [apply X, Hi|exact HH].
Qed.

Lemma complete_means_sent n l w : files_only l -> sn_run (sender_init n) l = Some (Ret w) ->
  (forall h, In h (all_blocks w) -> 0 <= s_size (h_src h)) ->
  zsum st_effData (sn_stats w) = zsum h_n (all_blocks w) ->
  forall h, In h (all_blocks w) -> (in_history w h /\ sent_whole h = true) \/ s_size (h_src h) = 0.
Proof.
  intros Hf E Hs Ht h Hi.
  rewrite (totals_run n l w st_effData (or_intror (or_introl eq_refl)) E) in Ht.
  assert (D : zsum (fun h => h_n h - st_effData (h_st h)) (all_blocks w) = 0).
  { rewrite (zsum_ext _ (fun h => h_n h + - st_effData (h_st h))) by (intros; lia).
    rewrite zsum_add.
    assert (N : forall k, zsum (fun h => - st_effData (h_st h)) k = - zsum (fun h => st_effData (h_st h)) k).
    { induction k as [|a k IH]; [reflexivity|]. cbn [zsum]. lia. }
    rewrite N. lia. }
  assert (P : forall h, In h (all_blocks w) -> 0 <= h_n h - st_effData (h_st h)).
  { intros x Hx. destruct (block_effective _ _ _ _ Hf E Hx) as (G & Ed & _). specialize (Hs _ Hx).
    rewrite Ed. destruct (_ =? 1); lia. }
  pose proof (zsum_zero _ _ P D _ Hi) as Z0. cbn beta in Z0.
  destruct (block_effective _ _ _ _ Hf E Hi) as (G & Ed & B1 & _ & _).
  destruct (Z.eqb_spec (st_blocks (h_st h)) 1) as [Eb|Eb]; [left; apply B1, Eb|right; lia].
Qed.

(** ** Sender::finish *)
Definition acked_ok (hi : history) : Prop := 0 <= hi_acked hi <= zlen (hi_list hi).

Lemma setCheckpoint_acked hi ts c g e hi' ts' ret : acked_ok hi ->
  setCheckpoint hi ts c g = Ret (e, hi', ts', ret) ->
  acked_ok hi' /\ (e <> INVALID_CHECKPOINT -> hi_acked hi' = zlen (hi_list hi')).
Proof.
  intros H E. destruct (setCheckpoint_inv _ _ _ _ _ _ _ _ E) as [(-> & -> & _ & ->)|(Hne & Hn & _ & Hf & ->)].
  - split; [exact H|intros X; contradiction].
  - assert (A : ck_numBlocks c = zlen (firstn (Z.to_nat (ck_numBlocks c)) (hi_list hi))).
    { unfold zlen in *. rewrite firstn_length. lia. }
    split; [|intros _; exact A]. unfold acked_ok; cbn [hi_acked hi_list]. lia.
Qed.

Definition lenW (n : nat) (w : sender) : Prop :=
  length (sn_flight w) = n /\ length (sn_hist w) = n /\ length (sn_stats w) = n /\
  Forall acked_ok (sn_hist w).

Lemma upd_lenW n w i q fl hi ts fa : lenW n w -> acked_ok hi -> lenW n (upd_thread w i q fl hi ts fa).
Proof.
  intros (A & B & C & D) H. unfold lenW, upd_thread; cbn [sn_flight sn_hist sn_stats].
  rewrite !set_nth_length. split; [exact A|split; [exact B|split; [exact C|]]]. apply Forall_set; assumption.
Qed.

Lemma step_lenW n w a w' : lenW n w -> sn_step w a = Some (Ret w') -> lenW n w'.
Proof.
  intros HW. pose proof HW as (A & B & C & D).
  assert (AC : forall i fl hi ts c g, nth_error (sn_hist w) i = Some hi ->
    apply_ckpt w i fl (setCheckpoint hi ts c g) = Some (Ret w') -> lenW n w').
  { intros i fl hi ts c g E1. destruct (setCheckpoint hi ts c g) as [[[[e hi'] ts'] ret]| |] eqn:Es;
      cbn [apply_ckpt]; intros E; try discriminate. injection E as <-.
    apply upd_lenW; [exact HW|]. eapply setCheckpoint_acked; [|exact Es].
    exact (Forall_nth_error _ _ _ _ D E1). }
  destruct a as [s|i j b|i r|i c|i c|i|i|i e|i m]; cbn [sn_step]; unfold nthd, returnUnacked.
  - intros E; injection E as <-; exact HW.
  - destruct (nth_error (sn_flight w) i) as [[h0|]|]; try discriminate.
    destruct (nth_error (sn_hist w) i) as [hi|] eqn:E2; try discriminate.
    destruct (nth_error (sn_stats w) i) as [ts|]; try discriminate.
    destruct (nth_error (sn_queue w) j) as [h|]; try discriminate.
    destruct (openSource b h) as [e h']. pose proof (Forall_nth_error _ _ _ _ D E2).
    destruct (e =? OK); intros E; injection E as <-; apply upd_lenW; assumption.
  - destruct (nth_error (sn_flight w) i) as [[h0|]|]; try discriminate.
    destruct (nth_error (sn_hist w) i) as [hi|] eqn:E2; try discriminate.
    destruct (nth_error (sn_stats w) i) as [ts|]; try discriminate.
    pose proof (Forall_nth_error _ _ _ _ D E2) as Ha. unfold addSource. destruct (hi_global hi).
    + destruct (markSourceAsFailed _ _ _); intros E; injection E as <-; apply upd_lenW; [exact HW|exact Ha].
    + intros E; injection E as <-; apply upd_lenW; [exact HW|].
      unfold acked_ok, zlen in *; cbn [hi_acked hi_list]. rewrite app_length. cbn. lia.
  - destruct (nth_error (sn_flight w) i) as [[h0|]|]; try discriminate.
    destruct (nth_error (sn_hist w) i) as [hi|] eqn:E2; try discriminate.
    destruct (nth_error (sn_stats w) i) as [ts|]; try discriminate. eapply AC; exact E2.
  - destruct (nth_error (sn_flight w) i) as [fl|]; try discriminate.
    destruct (nth_error (sn_hist w) i) as [hi|] eqn:E2; try discriminate.
    destruct (nth_error (sn_stats w) i) as [ts|]; try discriminate. eapply AC; exact E2.
  - destruct (nth_error (sn_flight w) i) as [[h0|]|]; try discriminate.
    destruct (nth_error (sn_hist w) i) as [hi|] eqn:E2; try discriminate.
    destruct (nth_error (sn_stats w) i) as [ts|]; try discriminate. eapply AC; exact E2.
  - destruct (nth_error (sn_flight w) i) as [[h0|]|]; try discriminate.
    destruct (nth_error (sn_hist w) i) as [hi|] eqn:E2; try discriminate.
    destruct (nth_error (sn_stats w) i) as [ts|]; try discriminate.
    intros E; injection E as <-; apply upd_lenW; [exact HW|].
    unfold acked_ok, markAllAcknowledged, zlen; cbn [hi_acked hi_list]. lia.
  - destruct (nth_error (sn_flight w) i) as [fl|]; try discriminate.
    destruct (nth_error (sn_hist w) i) as [hi|] eqn:E2; try discriminate.
    destruct (nth_error (sn_stats w) i) as [ts|]; try discriminate.
    intros E; injection E as <-; apply upd_lenW; [exact HW|exact (Forall_nth_error _ _ _ _ D E2)].
  - destruct (nth_error (sn_flight w) i) as [fl|]; try discriminate.
    destruct (nth_error (sn_hist w) i) as [hi|] eqn:E2; try discriminate.
    destruct (nth_error (sn_stats w) i) as [ts|]; try discriminate.
    intros E; injection E as <-; apply upd_lenW; [exact HW|exact (Forall_nth_error _ _ _ _ D E2)].
Qed.

Lemma run_lenW n l : forall w w', lenW n w -> sn_run w l = Some (Ret w') -> lenW n w'.
Proof.
  induction l as [|a l IH]; intros w w' H E; cbn [sn_run] in E; [injection E as <-; exact H|].
  destruct (sn_step w a) as [[w1| |]|] eqn:Es; try discriminate.
  eapply IH; [|exact E]. eapply step_lenW; eassumption.
Qed.

Lemma init_lenW n : lenW n (sender_init n).
Proof.
  unfold lenW, sender_init; cbn [sn_flight sn_hist sn_stats]. rewrite !repeat_length.
  split; [reflexivity|split; [reflexivity|split; [reflexivity|]]].
  apply Forall_forall; intros x Hx; apply repeat_spec in Hx; subst x. unfold acked_ok, zlen; cbn; lia.
Qed.

Lemma ssum_zsum f l : ssum f l = zsum f l.
Proof. induction l as [|a l IH]; [reflexivity|]. cbn [ssum zsum]. rewrite IH; reflexivity. Qed.

Lemma returnUnacked_ok hi ts : acked_ok hi -> ~ return_refused hi ->
  exists e hi' ts' ret, returnUnacked hi ts = Ret (e, hi', ts', ret) /\ hi_acked hi' = zlen (hi_list hi').
Proof.
  intros Ha Hr. unfold returnUnacked.
  destruct (setCheckpoint_total hi ts (default_checkpoint (hi_acked hi)) false) as [[[[e hi'] ts'] ret] E].
  { unfold acked_ok in Ha; cbn; lia. }
  { cbn; lia. }
  exists e, hi', ts', ret. split; [exact E|].
  apply (setCheckpoint_acked _ _ _ _ _ _ _ _ Ha E).
  intros ->. destruct (refused_unchanged _ _ _ _ _ _ _ E) as (-> & -> & ->).
  apply Hr. apply (contradicts_refused hi ts _ false). exact E.
Qed.

Lemma finish_hists_ok acked his : forall tss, length his = length tss -> Forall acked_ok his ->
  (acked = false -> forall hi, In hi his -> ~ return_refused hi) ->
  exists tr tss' ret, finish_hists acked his tss = Ret (tr, tss', ret) /\
    forall f, counted f -> zsum f tr + zsum f (map h_st ret) - zsum (fun hi => zsum (fun h => f (h_st h)) (hi_list hi)) his
                           = zsum f tss' - zsum f tss.
Proof.
  induction his as [|hi his IH]; intros [|ts tss] Hl Ha Hr; try discriminate.
  { exists [], [], []. split; [reflexivity|]. intros f _; cbn; lia. }
  cbn [finish_hists]. inversion Ha as [|? ? Ha1 Ha2]; subst.
  destruct (IH tss) as (tr & tss' & ret & E & Hs); [injection Hl as Hl; exact Hl|exact Ha2|intros X h Hh; apply Hr; [exact X|right; exact Hh]|].
  destruct acked.
  - cbn [obind]. unfold popAcked, markAllAcknowledged; cbn [hi_acked hi_list]. rewrite Z.eqb_refl. cbn [obind].
    rewrite E; cbn [obind]. eexists _, _, _. split; [reflexivity|].
    intros f Hf. specialize (Hs f Hf). rewrite zsum_app, zsum_rev, zsum_map. cbn [zsum app]. lia.
  - destruct (returnUnacked_ok hi ts Ha1) as (e & hi' & ts' & r & Er & Hz); [apply Hr; [reflexivity|left; reflexivity]|].
    rewrite Er; cbn [obind]. unfold popAcked. rewrite Hz, Z.eqb_refl. cbn [obind].
    rewrite E; cbn [obind]. eexists _, _, _. split; [reflexivity|].
    intros f Hf. specialize (Hs f Hf).
    pose proof (setCheckpoint_sum (fun h => f (h_st h)) f (counted_open f Hf) (counted_add f Hf)
      (counted_mark f Hf) (counted_err f Hf) (counted_hdr f Hf) _ _ _ _ _ _ _ _ Er) as S.
    rewrite map_app, !zsum_app, zsum_rev, !zsum_map in *. cbn [zsum]. lia.
Qed.

Lemma finish_returns n l w : sn_run (sender_init n) l = Some (Ret w) ->
  (forall o, In o (sn_flight w) -> o = None) ->
  ((exists t, In t (sn_stats w) /\ getErrorCode t = OK) \/
   (forall hi, In hi (sn_hist w) -> ~ return_refused hi)) ->
  exists tr fa ths, finish w = Ret (sn_stats w, tr, fa, ths).
Proof.
  intros E Hfl Hok. destruct (run_lenW _ _ _ _ (init_lenW n) E) as (L1 & L2 & L3 & L4).
  unfold finish. set (acked := existsb (fun t => getErrorCode t =? OK) (sn_stats w)).
  destruct (finish_hists_ok acked (sn_hist w) (sn_stats w)) as (tr & tss' & ret & Ef & Hs).
  { rewrite L2, L3; reflexivity. }
  { exact L4. }
  { intros Hacked. destruct Hok as [(t & Ht & Et)|Hok]; [|exact Hok].
    exfalso. unfold acked in Hacked.
    assert (X : existsb (fun t => getErrorCode t =? OK) (sn_stats w) = true).
    { apply existsb_exists. exists t. split; [exact Ht|rewrite Et; reflexivity]. }
    rewrite X in Hacked; discriminate. }
  rewrite Ef; cbn [obind].
  assert (T : forall f, counted f ->
    ssum f tr + ssum f (map h_st (sn_failed w ++ sn_queue w ++ ret)) = ssum f tss').
  { intros f Hf. rewrite !ssum_zsum, !map_app, !zsum_app. specialize (Hs f Hf).
    pose proof (totals_run n l w f Hf E) as Ht. rewrite tot_expand in Ht.
    assert (F0 : zsum (fun o => match o with Some h => f (h_st h) | None => 0 end) (sn_flight w) = 0).
    { rewrite (zsum_ext _ (fun _ => 0)); [|intros o Ho; rewrite (Hfl o Ho); reflexivity].
      clear. induction (sn_flight w) as [|a k IH]; [reflexivity|cbn [zsum]; lia]. }
    rewrite !zsum_map in *. lia. }
  unfold validateTransferStats.
  rewrite (T st_failed), (T st_data), (T st_effData), (T st_blocks) by (unfold counted; tauto).
  rewrite !Z.eqb_refl. cbn [andb obind]. eexists _, _, _. reflexivity.
Qed.

Lemma no_block_lost n l w : sn_run (sender_init n) l = Some (Ret w) ->
  Permutation (map ident (all_blocks w)) (discovered l).
Proof.
  intros E. pose proof (blocks_conserved l _ _ E) as P.
  assert (Z0 : all_blocks (sender_init n) = []).
  { unfold all_blocks, sender_init; cbn [sn_queue sn_flight sn_hist sn_failed app].
    rewrite app_nil_r. clear. induction n as [|n IH]; [reflexivity|exact IH]. }
  rewrite Z0 in P. exact P.
Qed.

Lemma other_block_not_credited hi ts c g e hi' ts' ret next :
  setCheckpoint hi ts c g = Ret (e, hi', ts', ret) -> e <> INVALID_CHECKPOINT ->
  nth_error (hi_list hi) (Z.to_nat (ck_numBlocks c)) = Some next -> about c next = false ->
  exists later, Forall2 (shortened 0) (skipn (Z.to_nat (ck_numBlocks c)) (hi_list hi)) later /\
    rev ret = later.
Proof.
  intros E Hne Hn Ha. destruct (checkpoint_returns _ _ _ _ _ _ _ _ E Hne) as (rest & H1 & H2 & H3).
  exists (rev ret). split; [|reflexivity].
  assert (R : skipn (Z.to_nat (ck_numBlocks c)) (hi_list hi) = rest).
  { rewrite H1, <- H2, Nat2Z.id, skipn_app, skipn_all, PeanoNat.Nat.sub_diag. reflexivity. }
  rewrite R. rewrite <- R in H3.
  assert (N : exists l, rest = next :: l).
  { rewrite H1, <- H2, Nat2Z.id, nth_error_app2, PeanoNat.Nat.sub_diag in Hn by lia.
    destruct rest as [|x l]; [discriminate|]. injection Hn as ->. exists l; reflexivity. }
  destruct N as [l ->]. rewrite R in H3. inversion H3 as [|h h' a b Hs Hf E1 E2]; subst.
  rewrite Ha in Hs. constructor; assumption.
Qed.

Lemma all_totals n l w : sn_run (sender_init n) l = Some (Ret w) ->
  zsum st_data (sn_stats w) = zsum (fun h => st_data (h_st h)) (all_blocks w) /\
  zsum st_effData (sn_stats w) = zsum (fun h => st_effData (h_st h)) (all_blocks w) /\
  zsum st_blocks (sn_stats w) = zsum (fun h => st_blocks (h_st h)) (all_blocks w) /\
  zsum st_failed (sn_stats w) = zsum (fun h => st_failed (h_st h)) (all_blocks w).
Proof.
  intros E. split; [|split; [|split]]; eapply totals_run; try exact E; unfold counted; tauto.
Qed.
