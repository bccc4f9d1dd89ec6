(** Bounds on reconnecting and waiting. *)
From Coq Require Import Lia.
From Verif Require Export Spec.SenderRetrySpec Proofs.HistoryFacts Proofs.SumFacts Proofs.BytesFacts Proofs.QueueMonitorFacts.
Import ListNotations.
Open Scope Z_scope.

Definition short (h : hsrc) : Z := h_n h - s_size (h_src h).
Definition sized (h : hsrc) : Prop := 0 <= s_size (h_src h).

Lemma mark_local h c ts h' ts' : markSourceAsFailed h c ts = (h', ts') -> st_local ts' = st_local ts.
Proof.
  unfold markSourceAsFailed. destruct (negb _); intros E; injection E as <- <-; reflexivity.
Qed.
Lemma mark_short h c ts h' ts' : markSourceAsFailed h c ts = (h', ts') ->
  short h' = short h + credit c h /\ s_size (h_src h') = s_size (h_src h) - credit c h.
Proof.
  intros E. destruct (mark_spec _ _ _ _ _ E) as ((_ & _ & _ & _ & _ & _ & Hs) & _ & Hn & _).
  unfold short. cbn zeta in *. lia.
Qed.

Lemma fail_all_short c : forall r ts ret ts', fail_all r c ts = (ret, ts') ->
  st_local ts' = st_local ts /\
  zsum short ret = zsum short r + match rev r with h :: _ => credit (Some c) h | [] => 0 end /\
  (Forall sized r -> (forall h t, rev r = h :: t -> credit (Some c) h <= s_size (h_src h)) -> Forall sized ret).
Proof.
  induction r as [|h r IH]; intros ts ret ts' E; cbn [fail_all] in E.
  { injection E as <- <-. split; [reflexivity|split; [reflexivity|intros; constructor]]. }
  destruct (markSourceAsFailed h _ ts) as [h' ts1] eqn:Em.
  destruct (fail_all r c ts1) as [r' ts2] eqn:Ef. injection E as <- <-.
  destruct (IH _ _ _ Ef) as (IH1 & IH2 & IH3).
  destruct (mark_short _ _ _ _ _ Em) as (M1 & M2). apply mark_local in Em.
  split; [congruence|]. cbn [rev zsum]. rewrite IH2.
  destruct r as [|x r].
  - cbn [rev app] in *. split; [lia|]. intros F H. apply Forall_inv in F.
    specialize (H _ _ eq_refl). constructor; [unfold sized in *; lia|].
    cbn [fail_all] in Ef. injection Ef as <- <-. constructor.
  - assert (C : credit None h = 0) by reflexivity.
    destruct (rev (x :: r)) as [|y l] eqn:Er.
    { apply (f_equal (@length _)) in Er. rewrite rev_length in Er. discriminate. }
    cbn [app]. split; [lia|]. intros F H. pose proof (Forall_inv F) as F1. apply Forall_inv_tail in F.
    constructor; [unfold sized in *; lia|]. apply IH3; [exact F|].
    intros g t Eg. injection Eg as -> ->. eapply H. reflexivity.
Qed.

Lemma skipn_hd {A} n : forall (l : list A) h t, skipn n l = h :: t -> nth_error l n = Some h.
Proof. induction n as [|n IH]; intros [|x l] h t E; cbn in *; try congruence. eapply IH, E. Qed.

Lemma setCheckpoint_short hi ts c g e hi' ts' ret :
  setCheckpoint hi ts c g = Ret (e, hi', ts', ret) -> within hi c -> Forall sized (hi_list hi) ->
  st_local ts' = st_local ts /\ Forall sized ret /\ Forall sized (hi_list hi') /\
  zsum short (hi_list hi) <= zsum short ret + zsum short (hi_list hi') /\
  (e <> INVALID_CHECKPOINT -> forall h, nth_error (hi_list hi) (Z.to_nat (ck_numBlocks c)) = Some h ->
     about c h = true ->
     zsum short ret + zsum short (hi_list hi') = zsum short (hi_list hi) + ck_lastBlockReceivedBytes c).
Proof.
  intros E (W0 & W1 & W2) F.
  destruct (setCheckpoint_inv _ _ _ _ _ _ _ _ E) as [(-> & -> & -> & ->)|(_ & _ & _ & Hf & ->)].
  { split; [reflexivity|split; [constructor|split; [exact F|split; [cbn [zsum]; lia|congruence]]]]. }
  set (n := Z.to_nat (ck_numBlocks c)) in *.
  destruct (fail_all_short _ _ _ _ _ Hf) as (L & S & Z). rewrite rev_involutive in S, Z.
  rewrite zsum_rev in S. cbn [hi_list].
  assert (Es : zsum short (hi_list hi) = zsum short (firstn n (hi_list hi)) + zsum short (skipn n (hi_list hi)))
    by (rewrite <- zsum_app, firstn_skipn; reflexivity).
  split; [exact L|split].
  { apply Z.
    - apply Forall_rev, Forall_skipn', F.
    - intros h t Eh. apply skipn_hd in Eh. rewrite mark_about. destruct (about c h) eqn:Ea; [apply W2; assumption|].
      apply (Forall_nth_error _ _ _ _ F Eh). }
  split; [apply Forall_firstn', F|].
  split.
  - destruct (skipn n (hi_list hi)) as [|h t]; [cbn [zsum] in *; lia|].
    rewrite mark_about in S. destruct (about c h); lia.
  - intros _ h Eh Ea. destruct (skipn n (hi_list hi)) as [|h1 t] eqn:Ek.
    + apply (f_equal (@length _)) in Ek. rewrite skipn_length in Ek. cbn in Ek.
      assert (nth_error (hi_list hi) n <> None) by congruence. apply nth_error_Some in H. lia.
    + apply skipn_hd in Ek. rewrite Ek in Eh. injection Eh as ->. rewrite mark_about, Ea in S. lia.
Qed.

(** ** Steps of the shared data *)
Definition lastok (hi : history) : Prop :=
  0 <= hi_acked hi /\
  match hi_last hi with Some c => 0 <= ck_numBlocks c <= zlen (hi_list hi) | None => True end.
Definition sizedo (o : option hsrc) : Prop := match o with Some h => sized h | None => True end.
Definition okS (w : sender) : Prop :=
  Forall sized (sn_queue w) /\ Forall sizedo (sn_flight w) /\
  Forall (fun hi => Forall sized (hi_list hi) /\ lastok hi) (sn_hist w) /\ Forall sized (sn_failed w).

Lemma upd_sum m w i q fl hi ts fa fl0 hi0 :
  nth_error (sn_flight w) i = Some fl0 -> nth_error (sn_hist w) i = Some hi0 ->
  zsum m (all_blocks (upd_thread w i q fl hi ts fa)) - zsum m (all_blocks w) =
    (zsum m q - zsum m (sn_queue w)) +
    (match fl with Some h => m h | None => 0 end - match fl0 with Some h => m h | None => 0 end) +
    (zsum m (hi_list hi) - zsum m (hi_list hi0)) + (zsum m fa - zsum m (sn_failed w)).
Proof.
  intros E1 E2. rewrite !tot_expand. unfold upd_thread.
  cbn [sn_queue sn_flight sn_hist sn_stats sn_failed].
  rewrite (zsum_set _ _ _ _ fl E1), (zsum_set _ _ _ _ hi E2). lia.
Qed.

(** What a step does for thread [k]. *)
Definition effect (k : nat) (w w' : sender) : Prop :=
  confirmed_blocks k w <= confirmed_blocks k w' /\ (told k w = true -> told k w' = true).
Definition local_of (k : nat) (w : sender) : Z :=
  match nth_error (sn_stats w) k with Some t => st_local t | None => OK end.

Lemma upd_effect w i q fl hi ts fa hi0 k :
  nth_error (sn_hist w) i = Some hi0 ->
  (k = i -> (match hi_last hi0 with Some c => ck_numBlocks c | None => 0 end <=
             match hi_last hi with Some c => ck_numBlocks c | None => 0 end) /\
            (hi_last hi0 <> None -> hi_last hi <> None)) ->
  effect k w (upd_thread w i q fl hi ts fa).
Proof.
  intros E H. unfold effect, confirmed_blocks, told, upd_thread; cbn [sn_hist].
  destruct (Nat.eq_dec k i) as [->|Hk].
  - rewrite E, (nth_set_same _ _ _ _ E). destruct (H eq_refl) as (H1 & H2). split; [exact H1|].
    destruct (hi_last hi0); [|discriminate]. destruct (hi_last hi); [reflexivity|]. exfalso. apply H2; congruence.
  - rewrite nth_set_other by (intro X; apply Hk; symmetry; exact X). split; [lia|auto].
Qed.
Lemma upd_local w i q fl hi ts fa ts0 k :
  nth_error (sn_stats w) i = Some ts0 -> (k = i -> st_local ts = st_local ts0) ->
  local_of k (upd_thread w i q fl hi ts fa) = local_of k w.
Proof.
  intros E H. unfold local_of, upd_thread; cbn [sn_stats].
  destruct (Nat.eq_dec k i) as [->|Hk].
  - rewrite E, (nth_set_same _ _ _ _ E). apply H; reflexivity.
  - rewrite nth_set_other by (intro X; apply Hk; symmetry; exact X). reflexivity.
Qed.

Lemma validate_mono last c g e : validateCheckpoint last c g = Ret e -> e <> INVALID_CHECKPOINT ->
  match last with Some l => ck_numBlocks l <= ck_numBlocks c | None => True end.
Proof.
  intros E N. destruct last as [l|]; [|exact I].
  destruct (Z.lt_ge_cases (ck_numBlocks c) (ck_numBlocks l)) as [H|H]; [|exact H].
  exfalso. apply N. assert (X : validateCheckpoint (Some l) c g = Ret INVALID_CHECKPOINT).
  { apply validate_invalid. exists l. split; [reflexivity|left; exact H]. }
  congruence.
Qed.

Lemma ckpt_step w i fl hi ts c g w' :
  okS w -> within hi c ->
  nth_error (sn_flight w) i = Some fl -> nth_error (sn_hist w) i = Some hi ->
  nth_error (sn_stats w) i = Some ts ->
  apply_ckpt w i fl (setCheckpoint hi ts c g) = Some (Ret w') ->
  okS w' /\ confirmed_bytes w <= confirmed_bytes w' /\
  (forall k, effect k w w') /\ (forall k, local_of k w' = local_of k w).
Proof.
  intros (Q & F & H & X) W E1 E2 E3.
  destruct (setCheckpoint hi ts c g) as [[[[e hi'] ts'] ret]| |] eqn:Es;
    cbn [apply_ckpt]; intros E; try discriminate. injection E as <-.
  destruct (Forall_nth_error _ _ _ _ H E2) as (Hs & Hl).
  destruct (setCheckpoint_short _ _ _ _ _ _ _ _ Es W Hs) as (L & R1 & R2 & R3 & _).
  assert (Hl' : lastok hi' /\ (match hi_last hi with Some c => ck_numBlocks c | None => 0 end <=
             match hi_last hi' with Some c => ck_numBlocks c | None => 0 end) /\
            (hi_last hi <> None -> hi_last hi' <> None)).
  { destruct (setCheckpoint_inv _ _ _ _ _ _ _ _ Es) as [(_ & -> & _)|(N & B & V & _ & ->)].
    - split; [exact Hl|split; [lia|auto]].
    - split; [unfold lastok; cbn [hi_last hi_list hi_acked]; unfold zlen in *; rewrite firstn_length; lia|].
      cbn [hi_last]. split; [|congruence].
      apply validate_mono in V; [|exact N]. destruct (hi_last hi); lia. }
  destruct Hl' as (Hl' & Hm & Ht).
  split.
  { unfold okS, upd_thread; cbn [sn_queue sn_flight sn_hist sn_failed].
    split; [apply Forall_app; split; assumption|].
    split; [apply Forall_set; [exact F|eapply (Forall_nth_error _ _ _ _ F E1)]|].
    split; [apply Forall_set; [exact H|split; assumption]|exact X]. }
  split.
  { unfold confirmed_bytes. fold short.
    pose proof (upd_sum short w i (sn_queue w ++ ret) fl hi' ts' (sn_failed w) _ _ E1 E2) as G.
    rewrite zsum_app in G. change (fun h => h_n h - s_size (h_src h)) with short. lia. }
  split.
  - intros k. apply upd_effect with (hi0 := hi); [exact E2|]. intros ->. split; assumption.
  - intros k. apply upd_local with (ts0 := ts); [exact E3|]. intros ->. exact L.
Qed.

Lemma add_size h t : s_size (h_src (addTransferStats h t)) = s_size (h_src h) /\ short (addTransferStats h t) = short h.
Proof. split; reflexivity. Qed.
Lemma open_size b h : s_size (h_src (snd (openSource b h))) = s_size (h_src h) /\ short (snd (openSource b h)) = short h.
Proof. unfold openSource. destruct (_ =? _); split; reflexivity. Qed.

Lemma found_step w a w' : sn_step w a = Some (Ret w') ->
  found_blocks w' = found_blocks w + (match a with ADiscover _ => 1 | _ => 0 end) /\
  found_bytes w' = found_bytes w + (match a with ADiscover s => s_size s | _ => 0 end).
Proof.
  intros E. assert (Zs : forall l : list stats, zsum (fun _ => 0) l = 0).
  { induction l as [|x l IH]; cbn [zsum]; lia. }
  assert (Zl : forall l : list hsrc, zlen l = zsum (fun _ => 1) l).
  { induction l as [|x l IH]; [reflexivity|]. cbn [zsum]. rewrite <- IH. unfold zlen. cbn [length]. lia. }
  split.
  - unfold found_blocks. rewrite !Zl.
    assert (G : gap (fun _ => 1) (fun _ => 0) w' = gap (fun _ => 1) (fun _ => 0) w + inject (fun _ => 1) a).
    { apply step_gap; auto; intros; lia. }
    unfold gap, inject in G. rewrite !Zs in G. destruct a; lia.
  - assert (G : gap h_n (fun _ => 0) w' = gap h_n (fun _ => 0) w + inject h_n a).
    { apply step_gap; auto.
      - intros b h. unfold openSource. destruct (_ =? _); reflexivity.
      - intros h r ts. cbn. lia.
      - intros h c ts h' ts' M. destruct (mark_spec _ _ _ _ _ M) as (_ & _ & Hn & _). lia. }
    unfold gap, inject in G. rewrite !Zs in G. unfold found_bytes. destruct a; cbn in *; lia.
Qed.

Lemma world_step w a w' : okS w -> believable w a -> sn_step w a = Some (Ret w') ->
  okS w' /\ confirmed_bytes w <= confirmed_bytes w' /\
  (forall k, (forall r hi, a = ASend k r -> nth_error (sn_hist w) k = Some hi -> hi_global hi = false) ->
             effect k w w') /\
  (forall k, foreign k a = true -> local_of k w' = local_of k w).
Proof.
  intros OK B. pose proof OK as (Q & F & H & X).
  destruct a as [s|i j b|i r|i c|i c|i|i|i e|i n]; cbn [sn_step believable foreign] in *; unfold nthd.
  - intros E; injection E as <-.
    assert (Hq : Forall sized (sn_queue w ++ [newSource s]))
      by (apply Forall_app; split; [exact Q|constructor; [exact B|constructor]]).
    split; [split; [exact Hq|split; [exact F|split; [exact H|exact X]]]|].
    split. { unfold confirmed_bytes. rewrite !tot_expand. cbn [sn_queue sn_flight sn_hist sn_failed].
             rewrite zsum_app. cbn [zsum newSource h_n h_src]. lia. }
    split; intros k _; [split; [unfold confirmed_blocks; cbn [sn_hist]; lia|auto]|reflexivity].
  - destruct (nth_error (sn_flight w) i) as [[h0|]|] eqn:E1; try discriminate.
    destruct (nth_error (sn_hist w) i) as [hi|] eqn:E2; try discriminate.
    destruct (nth_error (sn_stats w) i) as [ts|] eqn:E3; try discriminate.
    destruct (nth_error (sn_queue w) j) as [h|] eqn:E4; try discriminate.
    pose proof (open_size b h) as (Ho1 & Ho2). destruct (openSource b h) as [e h'] eqn:Eo. cbn [snd] in Ho1, Ho2.
    pose proof (Forall_nth_error _ _ _ _ Q E4) as Sh.
    assert (Sh' : sized h') by (unfold sized in *; lia).
    pose proof (Forall_nth_error _ _ _ _ H E2) as Hh.
    assert (Zq : zsum short (remove_nth (sn_queue w) j) = zsum short (sn_queue w) - short h)
      by (apply zsum_take_out; exact E4).
    destruct (e =? _); intros E; injection E as <-.
    + pose proof (upd_sum short w i (remove_nth (sn_queue w) j) (Some h') hi ts (sn_failed w) _ _ E1 E2) as G. cbv beta iota in G.
      split; [|split; [|split]].
      * unfold okS, upd_thread; cbn [sn_queue sn_flight sn_hist sn_failed].
        split; [apply Forall_remove, Q|split; [apply Forall_set; assumption|split; [apply Forall_set; assumption|exact X]]].
      * unfold confirmed_bytes. change (fun h => h_n h - s_size (h_src h)) with short. cbv beta iota in G. lia.
      * intros k _. apply upd_effect with (hi0 := hi); [exact E2|]. intros _. split; [lia|auto].
      * intros k _. apply upd_local with (ts0 := ts); [exact E3|reflexivity].
    + pose proof (upd_sum short w i (remove_nth (sn_queue w) j) None hi ts (sn_failed w ++ [h']) _ _ E1 E2) as G.
      rewrite zsum_app in G; cbn [zsum] in G.
      split; [|split; [|split]].
      * unfold okS, upd_thread; cbn [sn_queue sn_flight sn_hist sn_failed].
        split; [apply Forall_remove, Q|split; [apply Forall_set; [assumption|exact I]|split; [apply Forall_set; assumption|]]].
        apply Forall_app; split; [exact X|constructor; [exact Sh'|constructor]].
      * unfold confirmed_bytes. change (fun h => h_n h - s_size (h_src h)) with short. cbv beta iota in G. lia.
      * intros k _. apply upd_effect with (hi0 := hi); [exact E2|]. intros _. split; [lia|auto].
      * intros k _. apply upd_local with (ts0 := ts); [exact E3|reflexivity].
  - destruct (nth_error (sn_flight w) i) as [[h|]|] eqn:E1; try discriminate.
    destruct (nth_error (sn_hist w) i) as [hi|] eqn:E2; try discriminate.
    destruct (nth_error (sn_stats w) i) as [ts|] eqn:E3; try discriminate.
    pose proof (Forall_nth_error _ _ _ _ F E1) as Sh. cbn [sizedo] in Sh.
    pose proof (Forall_nth_error _ _ _ _ H E2) as (Hs & Hl).
    set (h1 := addTransferStats h (sendStats h r)).
    assert (S1 : sized h1) by exact Sh. assert (S2 : short h1 = short h) by reflexivity.
    unfold addSource. destruct (hi_global hi) eqn:Eg.
    + destruct (markSourceAsFailed h1 (hi_last hi) _) as [h' ts'] eqn:Em.
      destruct (mark_short _ _ _ _ _ Em) as (M1 & M2).
      assert (Hc : 0 <= credit (hi_last hi) h1 <= s_size (h_src h1)).
      { unfold credit. destruct (hi_last hi) as [c|] eqn:El; [|unfold sized in S1; lia].
        destruct (about c h1) eqn:Ea; [|unfold sized in S1; lia].
        apply (B hi h c eq_refl Eg El eq_refl). exact Ea. }
      intros E; injection E as <-.
      split; [|split; [|split]].
      * unfold okS, upd_thread; cbn [sn_queue sn_flight sn_hist sn_failed].
        split; [apply Forall_app; split; [exact Q|constructor; [unfold sized in *; lia|constructor]]|].
        split; [apply Forall_set; [exact F|exact I]|]. split; [apply Forall_set; [exact H|split; [exact Hs|split; [apply Hl|exact I]]]|exact X].
      * unfold confirmed_bytes. change (fun h => h_n h - s_size (h_src h)) with short.
        match goal with |- _ <= zsum short (all_blocks (upd_thread _ _ ?q ?fl ?hi' ?ts' ?fa)) =>
          pose proof (upd_sum short w i q fl hi' ts' fa _ _ E1 E2) as G end.
        rewrite zsum_app in G. cbn [zsum hi_list] in G. lia.
      * intros k Hk. destruct (Nat.eq_dec k i) as [->|Ne].
        { specialize (Hk r hi eq_refl E2). congruence. }
        apply upd_effect with (hi0 := hi); [exact E2|]. intros ->; congruence.
      * intros k Hk. apply upd_local with (ts0 := ts); [exact E3|].
        intros ->. rewrite Nat.eqb_refl in Hk. discriminate.
    + intros E; injection E as <-.
      split; [|split; [|split]].
      * unfold okS, upd_thread; cbn [sn_queue sn_flight sn_hist sn_failed].
        split; [rewrite app_nil_r; exact Q|]. split; [apply Forall_set; [exact F|exact I]|].
        split; [apply Forall_set; [exact H|]|exact X]. cbn [hi_list]. split.
        { apply Forall_app; split; [exact Hs|constructor; [exact S1|constructor]]. }
        unfold lastok in *; cbn [hi_last hi_list hi_acked]. destruct Hl as (Ha & Hl). split; [exact Ha|].
        destruct (hi_last hi); [|exact I]. unfold zlen in *. rewrite app_length. lia.
      * unfold confirmed_bytes. change (fun h => h_n h - s_size (h_src h)) with short.
        match goal with |- _ <= zsum short (all_blocks (upd_thread _ _ ?q ?fl ?hi' ?ts' ?fa)) =>
          pose proof (upd_sum short w i q fl hi' ts' fa _ _ E1 E2) as G end.
        cbn [hi_list] in G. rewrite !zsum_app in G. cbn [zsum] in G. fold h1 in G. lia.
      * intros k _. apply upd_effect with (hi0 := hi); [exact E2|]. intros _. split; [cbn [hi_last]; lia|auto].
      * intros k Hk. apply upd_local with (ts0 := ts); [exact E3|].
        intros ->. rewrite Nat.eqb_refl in Hk. discriminate.
  - destruct (nth_error (sn_flight w) i) as [[h0|]|] eqn:E1; try discriminate.
    destruct (nth_error (sn_hist w) i) as [hi|] eqn:E2; try discriminate.
    destruct (nth_error (sn_stats w) i) as [ts|] eqn:E3; try discriminate.
    intros E. destruct (ckpt_step _ _ _ _ _ _ _ _ OK (B _ eq_refl) E1 E2 E3 E) as (R1 & R2 & R3 & R4). auto.
  - destruct (nth_error (sn_flight w) i) as [fl|] eqn:E1; try discriminate.
    destruct (nth_error (sn_hist w) i) as [hi|] eqn:E2; try discriminate.
    destruct (nth_error (sn_stats w) i) as [ts|] eqn:E3; try discriminate.
    intros E. destruct (ckpt_step _ _ _ _ _ _ _ _ OK (B _ eq_refl) E1 E2 E3 E) as (R1 & R2 & R3 & R4). auto.
  - destruct (nth_error (sn_flight w) i) as [[h0|]|] eqn:E1; try discriminate.
    destruct (nth_error (sn_hist w) i) as [hi|] eqn:E2; try discriminate.
    destruct (nth_error (sn_stats w) i) as [ts|] eqn:E3; try discriminate.
    intros E. unfold returnUnacked in E.
    assert (W : 0 <= hi_acked hi -> within hi (default_checkpoint (hi_acked hi))).
    { intros W0. split; [exact W0|split; [cbn; lia|]]. intros h Eh _. cbn.
      destruct (Forall_nth_error _ _ _ _ H E2) as (Hs & _). exact (Forall_nth_error _ _ _ _ Hs Eh). }
    destruct (Forall_nth_error _ _ _ _ H E2) as (_ & Ha & _).
    destruct (ckpt_step _ _ _ _ _ _ _ _ OK (W Ha) E1 E2 E3 E) as (R1 & R2 & R3 & R4). auto.
  - destruct (nth_error (sn_flight w) i) as [[h0|]|] eqn:E1; try discriminate.
    destruct (nth_error (sn_hist w) i) as [hi|] eqn:E2; try discriminate.
    destruct (nth_error (sn_stats w) i) as [ts|] eqn:E3; try discriminate.
    pose proof (Forall_nth_error _ _ _ _ H E2) as (Hs & Hl).
    intros E; injection E as <-. split; [|split; [|split]].
    + unfold okS, upd_thread; cbn [sn_queue sn_flight sn_hist sn_failed].
      split; [exact Q|split; [apply Forall_set; [exact F|exact I]|split; [apply Forall_set; [exact H|]|exact X]]].
      split; [exact Hs|]. split; [cbn [markAllAcknowledged hi_acked]; unfold zlen; lia|apply Hl].
    + unfold confirmed_bytes. change (fun h => h_n h - s_size (h_src h)) with short.
      match goal with |- _ <= zsum short (all_blocks (upd_thread _ _ ?q ?fl ?hi' ?ts' ?fa)) =>
        pose proof (upd_sum short w i q fl hi' ts' fa _ _ E1 E2) as G end.
      cbn [hi_list markAllAcknowledged] in G. lia.
    + intros k _. apply upd_effect with (hi0 := hi); [exact E2|]. intros _. split; [cbn [markAllAcknowledged hi_last]; lia|auto].
    + intros k Hk. apply upd_local with (ts0 := ts); [exact E3|reflexivity].
  - destruct (nth_error (sn_flight w) i) as [fl|] eqn:E1; try discriminate.
    destruct (nth_error (sn_hist w) i) as [hi|] eqn:E2; try discriminate.
    destruct (nth_error (sn_stats w) i) as [ts|] eqn:E3; try discriminate.
    intros E; injection E as <-. split; [|split; [|split]].
    + unfold okS, upd_thread; cbn [sn_queue sn_flight sn_hist sn_failed].
      split; [exact Q|split; [apply Forall_set; [exact F|apply (Forall_nth_error _ _ _ _ F E1)]|]].
      split; [apply Forall_set; [exact H|apply (Forall_nth_error _ _ _ _ H E2)]|exact X].
    + unfold confirmed_bytes. change (fun h => h_n h - s_size (h_src h)) with short.
      match goal with |- _ <= zsum short (all_blocks (upd_thread _ _ ?q ?fl ?hi' ?ts' ?fa)) =>
        pose proof (upd_sum short w i q fl hi' ts' fa _ _ E1 E2) as G end. cbv beta iota in G. lia.
    + intros k _. apply upd_effect with (hi0 := hi); [exact E2|]. intros _. split; [lia|auto].
    + intros k Hk. apply upd_local with (ts0 := ts); [exact E3|].
      intros ->. rewrite Nat.eqb_refl in Hk. discriminate.
  - destruct (nth_error (sn_flight w) i) as [fl|] eqn:E1; try discriminate.
    destruct (nth_error (sn_hist w) i) as [hi|] eqn:E2; try discriminate.
    destruct (nth_error (sn_stats w) i) as [ts|] eqn:E3; try discriminate.
    intros E; injection E as <-. split; [|split; [|split]].
    + unfold okS, upd_thread; cbn [sn_queue sn_flight sn_hist sn_failed].
      split; [exact Q|split; [apply Forall_set; [exact F|apply (Forall_nth_error _ _ _ _ F E1)]|]].
      split; [apply Forall_set; [exact H|apply (Forall_nth_error _ _ _ _ H E2)]|exact X].
    + unfold confirmed_bytes. change (fun h => h_n h - s_size (h_src h)) with short.
      match goal with |- _ <= zsum short (all_blocks (upd_thread _ _ ?q ?fl ?hi' ?ts' ?fa)) =>
        pose proof (upd_sum short w i q fl hi' ts' fa _ _ E1 E2) as G end. cbv beta iota in G. lia.
    + intros k _. apply upd_effect with (hi0 := hi); [exact E2|]. intros _. split; [lia|auto].
    + intros k Hk. apply upd_local with (ts0 := ts); [exact E3|reflexivity].
Qed.

(** ** The thread's steps *)
Lemma act_inv s a k r : act s a k = Some (Ret r) -> exists w, sn_step (sr_w s) a = Some (Ret w) /\ k w = Some (Ret r).
Proof.
  unfold act. destruct (sn_step (sr_w s) a) as [[w| |]|]; try discriminate. intros E; exists w; split; [reflexivity|exact E].
Qed.

Definition better (i : nat) (w w' : sender) : Prop :=
  okS w' /\ confirmed_bytes w <= confirmed_bytes w' /\ effect i w w'.
Lemma better_refl i w : okS w -> better i w w.
Proof. intros H. split; [exact H|split; [lia|split; [lia|auto]]]. Qed.
Lemma better_trans i w1 w2 w3 : better i w1 w2 -> better i w2 w3 -> better i w1 w3.
Proof.
  intros (A1 & A2 & A3 & A4) (B1 & B2 & B3 & B4). split; [exact B1|split; [lia|split; [lia|auto]]].
Qed.
Lemma better_step i w a w' : okS w -> believable w a -> sn_step w a = Some (Ret w') ->
  (forall r hi, a = ASend i r -> nth_error (sn_hist w) i = Some hi -> hi_global hi = false) -> better i w w'.
Proof.
  intros H B E N. destruct (world_step _ _ _ H B E) as (A1 & A2 & A3 & _).
  split; [exact A1|split; [exact A2|apply A3, N]].
Qed.

Lemma fail_inv s e st s' : fail s e st = Some (Ret s') -> okS (sr_w s) ->
  exists w, s' = with_w s w st /\ better (sr_i s) (sr_w s) w /\ local_of (sr_i s) w = e.
Proof.
  intros E H. apply act_inv in E. destruct E as (w & Es & E). injection E as <-.
  exists w. split; [reflexivity|].
  split; [apply (better_step _ _ (AError (sr_i s) e) _ H I Es); intros; discriminate|].
  cbn [sn_step] in Es. unfold nthd in Es.
  destruct (nth_error (sn_flight (sr_w s)) (sr_i s)) as [fl|] eqn:E1; try discriminate.
  destruct (nth_error (sn_hist (sr_w s)) (sr_i s)) as [hi|] eqn:E2; try discriminate.
  destruct (nth_error (sn_stats (sr_w s)) (sr_i s)) as [ts|] eqn:E3; try discriminate.
  injection Es as <-. unfold local_of, upd_thread; cbn [sn_stats]. rewrite (nth_set_same _ _ _ _ E3). reflexivity.
Qed.

Lemma better_found w a w' : sn_step w a = Some (Ret w') -> believable w a ->
  found_blocks w <= found_blocks w' /\ found_bytes w <= found_bytes w'.
Proof.
  intros E B. destruct (found_step _ _ _ E) as (F1 & F2). destruct a; cbn [believable] in B; lia.
Qed.

(** Reading a local checkpoint. *)
Lemma local_good s c w hi ts e hi' ts' ret : okS (sr_w s) ->
  nth_error (sn_hist (sr_w s)) (sr_i s) = Some hi -> nth_error (sn_stats (sr_w s)) (sr_i s) = Some ts ->
  setCheckpoint hi ts c false = Ret (e, hi', ts', ret) -> e <> INVALID_CHECKPOINT ->
  within hi c -> truthful hi c ->
  sn_step (sr_w s) (ALocal (sr_i s) c) = Some (Ret w) ->
  told (sr_i s) w = true /\
  (e <> NO_PROGRESS -> told (sr_i s) (sr_w s) = true ->
   confirmed_blocks (sr_i s) (sr_w s) < confirmed_blocks (sr_i s) w \/
   confirmed_bytes (sr_w s) < confirmed_bytes w).
Proof.
  intros OK E2 E3 Es Ne W T. cbn [sn_step]. unfold nthd. rewrite E2, E3.
  destruct (nth_error (sn_flight (sr_w s)) (sr_i s)) as [[h0|]|] eqn:E1; try discriminate.
  rewrite Es. cbn [apply_ckpt]. intros E; injection E as <-.
  destruct (setCheckpoint_inv _ _ _ _ _ _ _ _ Es) as [(X & _)|(_ & B & V & _ & Eh)]; [contradiction|].
  pose proof OK as (_ & _ & H & _). destruct (Forall_nth_error _ _ _ _ H E2) as (Hs & _).
  destruct (setCheckpoint_short _ _ _ _ _ _ _ _ Es W Hs) as (_ & _ & _ & _ & R5).
  split.
  { unfold told, upd_thread; cbn [sn_hist]. rewrite (nth_set_same _ _ _ _ E2), Eh. reflexivity. }
  intros Np Hl. unfold told in Hl. rewrite E2 in Hl. destruct (hi_last hi) as [l|] eqn:El; [|discriminate].
  pose proof (validate_mono _ _ _ _ V Ne) as Hm. cbn in Hm.
  destruct (Z.lt_ge_cases (ck_numBlocks l) (ck_numBlocks c)) as [Hb|Hb].
  { left. unfold confirmed_blocks, upd_thread; cbn [sn_hist].
    rewrite E2, (nth_set_same _ _ _ _ E2), El, Eh. exact Hb. }
  right. assert (Eq : ck_numBlocks c = ck_numBlocks l) by lia.
  unfold validateCheckpoint in V. rewrite Eq, !Z.ltb_irrefl in V.
  destruct ((ck_lastBlockSeqId c =? ck_lastBlockSeqId l) && (ck_lastBlockOffset c =? ck_lastBlockOffset l)) eqn:Sm.
  { destruct (negb _); cbn [negb] in V; injection V as <-; [exfalso; apply Ne; reflexivity|exfalso; apply Np; reflexivity]. }
  destruct (ck_lastBlockReceivedBytes c <? 0) eqn:Lt; [discriminate|]. apply Z.ltb_ge in Lt.
  destruct (ck_lastBlockReceivedBytes c =? 0) eqn:Z0; cbn [andb negb] in V; injection V as <-;
    [exfalso; apply Np; reflexivity|]. apply Z.eqb_neq in Z0.
  assert (P : 0 < ck_lastBlockReceivedBytes c) by lia.
  destruct (T P) as [(l' & X & _ & X2 & X3)|(h & Hh & Ha)].
  { rewrite El in X. injection X as <-. apply Bool.andb_false_iff in Sm. rewrite X2, X3, !Z.eqb_refl in Sm.
    destruct Sm; discriminate. }
  specialize (R5 Ne h Hh Ha).
  unfold confirmed_bytes. change (fun h => h_n h - s_size (h_src h)) with short.
  pose proof (upd_sum short (sr_w s) (sr_i s) (sn_queue (sr_w s) ++ ret) None hi' ts' (sn_failed (sr_w s)) _ _ E1 E2) as G.
  cbv beta iota in G. rewrite zsum_app in G. lia.
Qed.

Lemma err_same w i e w' : sn_step w (AError i e) = Some (Ret w') -> forall k,
  confirmed_blocks k w' = confirmed_blocks k w /\ confirmed_bytes w' = confirmed_bytes w.
Proof.
  cbn [sn_step]. unfold nthd.
  destruct (nth_error (sn_flight w) i) as [fl|] eqn:E1; try discriminate.
  destruct (nth_error (sn_hist w) i) as [hi|] eqn:E2; try discriminate.
  destruct (nth_error (sn_stats w) i) as [ts|] eqn:E3; try discriminate.
  intros E k; injection E as <-. split.
  - unfold confirmed_blocks, upd_thread; cbn [sn_hist]. destruct (Nat.eq_dec k i) as [->|Hk].
    + rewrite E2, (nth_set_same _ _ _ _ E2). reflexivity.
    + rewrite nth_set_other by (intro X; apply Hk; symmetry; exact X). reflexivity.
  - unfold confirmed_bytes. 
    match goal with |- zsum ?m (all_blocks (upd_thread _ _ ?q ?fl ?hi' ?ts' ?fa)) = _ =>
        pose proof (upd_sum m w i q fl hi' ts' fa _ _ E1 E2) as G end. cbv beta iota in G. lia.
Qed.

Definition pend (s : sthread) : Z := match sr_state s with SLocal => 1 | _ => 0 end.
Definition vv (s : sthread) : Z :=
  (if sr_resolved s then 1 else 0) + match sr_state s with SProcVersion | SEnd => 1 | _ => 0 end.
Definition nv (s : sthread) : Z := if sr_conns s =? 0 then 0 else 1.
Definition ff (s : sthread) : Z :=
  match sr_state s with SEnd => 1 | _ => if told (sr_i s) (sr_w s) then 1 else 0 end.
Definition D (R : Z) (s : sthread) : Z := sr_ctr s + pend s + nv s + vv s + R * ff s.

Definition failing (st : sstate) (conns : Z) : bool :=
  match st with SConnect => negb (conns =? 0) | SCheckAbort | SProcVersion => true | _ => false end.
Definition J (R : Z) (s : sthread) : Prop :=
  okS (sr_w s) /\ 0 <= sr_ctr s <= R /\ (sr_state s = SLocal -> sr_ctr s < R) /\
  (failing (sr_state s) (sr_conns s) = true -> local_of (sr_i s) (sr_w s) <> OK) /\ 0 <= sr_conns s.

Definition gain (s : sthread) (e : sin) (s' : sthread) : Z := if gained s e s' then 1 else 0.
Definition good (s : sthread) : Z := confirmed_blocks (sr_i s) (sr_w s) + confirmed_bytes (sr_w s).
Definition live (s : sthread) : Prop := sr_state s <> SEnd.

Definition grows (R m : Z) (s : sthread) (e : sin) (s' : sthread) : Prop :=
  J R s' /\ sr_i s' = sr_i s /\
  sr_conns s' - sr_conns s <= D R s' - D R s + R * gain s e s' /\
  (live s' -> live s /\ good s + gain s e s' <= good s') /\
  (gain s e s' = 0 \/ live s') /\
  0 <= sr_dials s' - sr_dials s <= m * (sr_conns s' - sr_conns s).

Lemma gain_good s e s' : sr_i s' = sr_i s -> better (sr_i s) (sr_w s) (sr_w s') -> good s + gain s e s' <= good s'.
Proof.
  intros Ei (_ & B & C & _). unfold good, gain, gained. rewrite Ei. destruct e; try lia;
    match goal with |- context [if ?x || ?y then _ else _] => destruct x eqn:?; destruct y eqn:? end;
    cbn [orb]; repeat match goal with H : (_ <? _) = true |- _ => apply Z.ltb_lt in H end; lia.
Qed.
Lemma gain_01 s e s' : 0 <= gain s e s' <= 1.
Proof. unfold gain. destruct (gained s e s'); lia. Qed.

Lemma gain_other s e s' : (forall r, e <> ILocal r) -> gain s e s' = 0.
Proof. intros N. unfold gain, gained. destruct e; try reflexivity. exfalso; eapply N; reflexivity. Qed.

Lemma told_better i w w' : better i w w' -> told i w = true -> told i w' = true.
Proof. intros (_ & _ & _ & T). exact T. Qed.

(** Steps that neither connect nor read a checkpoint. *)
Lemma plain_step R m s e s' : 0 < R -> (forall r, e <> ILocal r) -> J R s -> live s -> sr_state s <> SLocal ->
  better (sr_i s) (sr_w s) (sr_w s') -> sr_i s' = sr_i s ->
  sr_ctr s' = sr_ctr s -> sr_resolved s' = sr_resolved s ->
  sr_conns s' = sr_conns s -> sr_dials s' = sr_dials s ->
  sr_state s' <> SLocal ->
  (sr_state s = SProcVersion -> sr_state s' = SProcVersion \/ sr_state s' = SEnd) ->
  (failing (sr_state s') (sr_conns s') = true -> local_of (sr_i s') (sr_w s') <> OK) ->
  grows R m s e s'.
Proof.
  intros HR Hg (J1 & J2 & J3 & J4 & J5) Hl Nl B Ei Ec Er En Ed Nl' Hv Hf.
  pose proof (told_better _ _ _ B) as T.
  pose proof (gain_01 s e s').
  split; [|split; [exact Ei|split; [|split; [|split; [left; apply gain_other, Hg|lia]]]]].
  - split; [apply B|split; [lia|split; [congruence|split; [exact Hf|lia]]]].
  - rewrite En. unfold D, nv. rewrite Ec, En.
    assert (pend s = 0) by (unfold pend; destruct (sr_state s); congruence).
    assert (pend s' = 0) by (unfold pend; destruct (sr_state s'); congruence).
    assert (vv s <= vv s').
    { unfold vv. rewrite Er. unfold live in Hl. destruct (sr_state s); try (destruct (sr_state s'); lia).
      - destruct (Hv eq_refl) as [-> | ->]; lia.
      - exfalso; apply Hl; reflexivity. }
    assert (ff s <= ff s').
    { unfold ff. rewrite Ei. unfold live in Hl.
      destruct (told (sr_i s) (sr_w s)).
      - rewrite (T eq_refl). destruct (sr_state s'); destruct (sr_state s); lia.
      - destruct (sr_state s); destruct (sr_state s'); destruct (told (sr_i s) (sr_w s')); lia || congruence. }
    assert (R * ff s <= R * ff s') by (apply Z.mul_le_mono_nonneg_l; lia).
    assert (0 <= R * gain s e s') by (apply Z.mul_nonneg_nonneg; lia).
    lia.
  - intros _. split; [exact Hl|apply gain_good; assumption].
Qed.

Lemma end_step R m s e s' : 0 < R -> gain s e s' = 0 -> J R s -> live s -> okS (sr_w s') -> sr_i s' = sr_i s ->
  sr_ctr s' = sr_ctr s -> sr_resolved s' = sr_resolved s -> sr_state s' = SEnd ->
  (sr_conns s' = sr_conns s /\ sr_dials s' = sr_dials s) \/
  (sr_state s = SConnect /\ sr_conns s' = sr_conns s + 1 /\ 0 <= sr_dials s' - sr_dials s <= m) ->
  grows R m s e s'.
Proof.
  intros HR Hg (J1 & J2 & J3 & J4 & J5) Hl B Ei Ec Er Ee Hc.
  pose proof (gain_01 s e s').
  assert (Hc' : sr_conns s <= sr_conns s' <= sr_conns s + 1) by lia.
  split; [|split; [exact Ei|split; [|split; [|split; [left; exact Hg|]]]]].
  - split; [exact B|split; [lia|split; [congruence|split; [|lia]]]]. rewrite Ee. discriminate.
  - unfold D. rewrite Ec.
    assert (0 <= nv s' - nv s).
    { unfold nv. destruct (Z.eqb_spec (sr_conns s) 0); destruct (Z.eqb_spec (sr_conns s') 0); lia. }
    assert (X : pend s' = 0 /\ ff s' = 1 /\ vv s' = 1 + (if sr_resolved s then 1 else 0)).
    { unfold pend, ff, vv. rewrite Ee, Er. repeat split. lia. }
    destruct X as (-> & -> & ->).
    assert (ff s <= 1) by (unfold ff; destruct (told (sr_i s) (sr_w s)); destruct (sr_state s); lia).
    assert (R * ff s <= R * 1) by (apply Z.mul_le_mono_nonneg_l; lia).
    assert (0 <= R * gain s e s') by (apply Z.mul_nonneg_nonneg; lia).
    assert (Y : pend s + vv s <= 1 + (if sr_resolved s then 1 else 0)).
    { unfold pend, vv. destruct (sr_state s); lia. }
    destruct Hc as [(Hc & _)|(Hs & Hc & _)]; [lia|].
    assert (Y' : pend s + vv s = if sr_resolved s then 1 else 0).
    { unfold pend, vv. rewrite Hs. lia. }
    lia.
  - unfold live. congruence.
  - destruct Hc as [(Hc & Hd)|(Hs & Hc & Hd)]; [rewrite Hc, Hd; lia|].
    replace (sr_conns s' - sr_conns s) with 1 by lia. lia.
Qed.

Lemma dial_bound n : forall l a code k, dial_loop n l a = Some (code, k) -> a <= k <= a + Z.of_nat n.
Proof.
  induction n as [|n IH]; intros l a code k; cbn [dial_loop].
  { intros E; injection E as <- <-. lia. }
  destruct l as [|(e, ab) l]; [discriminate|].
  destruct (e =? OK); [intros E; injection E as <- <-; lia|].
  destruct (e =? CONN_ERROR); [intros E; injection E as <- <-; lia|].
  destruct (negb _); [intros E; injection E as <- <-; lia|].
  intros E; apply IH in E; lia.
Qed.
Definition most (o : sopts) : Z := Z.max 1 (so_retries o).
Lemma connect_bound r d code k : connectToReceiver r d = Some (code, k) -> 0 <= k <= Z.max 1 r.
Proof.
  unfold connectToReceiver. destruct d as [|l].
  { intros E; injection E as <- <-. lia. }
  intros E; apply dial_bound in E. destruct (Z.ltb_spec r 1); lia.
Qed.

Lemma other_step R m s a w : 0 < R -> J R s -> believable (sr_w s) a -> foreign (sr_i s) a = true ->
  sn_step (sr_w s) a = Some (Ret w) -> grows R m s (IOther a) (with_w s w (sr_state s)).
Proof.
  intros HR (J1 & J2 & J3 & J4 & J5) B F E.
  assert (N : forall r hi, a = ASend (sr_i s) r -> nth_error (sn_hist (sr_w s)) (sr_i s) = Some hi -> hi_global hi = false).
  { intros r hi -> _. cbn [foreign] in F. rewrite Nat.eqb_refl in F. discriminate. }
  pose proof (better_step _ _ _ _ J1 B E N) as Bt.
  destruct (world_step _ _ _ J1 B E) as (_ & _ & _ & L). specialize (L _ F).
  pose proof (told_better _ _ _ Bt) as T.
  pose proof (gain_01 s (IOther a) (with_w s w (sr_state s))).
  split; [|split; [reflexivity|split; [|split; [|split; [left; reflexivity|cbn; lia]]]]].
  - split; [apply Bt|split; [exact J2|split; [exact J3|split; [|exact J5]]]]. cbn [sr_state with_w sr_conns sr_i sr_w].
    rewrite L. exact J4.
  - change (sr_conns (with_w s w (sr_state s))) with (sr_conns s).
    unfold D. assert (ff s <= ff (with_w s w (sr_state s))).
    { unfold ff; cbn [with_w sr_state sr_i sr_w]. destruct (told (sr_i s) (sr_w s)).
      - rewrite (T eq_refl). destruct (sr_state s); lia.
      - destruct (sr_state s); destruct (told (sr_i s) w); lia. }
    assert (R * ff s <= R * ff (with_w s w (sr_state s))) by (apply Z.mul_le_mono_nonneg_l; lia).
    assert (0 <= R * gain s (IOther a) (with_w s w (sr_state s))) by (apply Z.mul_nonneg_nonneg; lia).
    change (sr_ctr (with_w s w (sr_state s))) with (sr_ctr s).
    change (pend (with_w s w (sr_state s))) with (pend s).
    change (nv (with_w s w (sr_state s))) with (nv s).
    change (vv (with_w s w (sr_state s))) with (vv s). lia.
  - intros Hl. split; [exact Hl|]. apply gain_good; [reflexivity|exact Bt].
Qed.

(** Setting an error code and going to a state that is neither the end nor the
    start of a checkpoint. *)
Lemma fail_step R m s e code st s' : 0 < R -> (forall r, e <> ILocal r) -> J R s -> live s -> sr_state s <> SLocal ->
  st <> SLocal -> (sr_state s = SProcVersion -> st = SProcVersion \/ st = SEnd) -> 
  (failing st (sr_conns s) = true -> code <> OK) ->
  fail s code st = Some (Ret s') -> grows R m s e s'.
Proof.
  intros HR Hg HJ Hl Nl Ns Hv Hc E. destruct (fail_inv _ _ _ _ E (proj1 HJ)) as (w & -> & B & L).
  apply plain_step; auto. cbn [with_w sr_i sr_w sr_state sr_conns]. rewrite L. exact Hc.
Qed.
Lemma fail_end R m s e code s' : 0 < R -> J R s -> live s ->
  fail s code SEnd = Some (Ret s') -> grows R m s e s'.
Proof.
  intros HR HJ Hl E. destruct (fail_inv _ _ _ _ E (proj1 HJ)) as (w & Es & B & L). 
  assert (Hg : gain s e s' = 0).
  { unfold fail in E. apply act_inv in E. destruct E as (w2 & Ew & E). injection E as E.
    destruct (err_same _ _ _ _ Ew (sr_i s)) as (S1 & S2).
    unfold gain, gained. destruct e; try reflexivity. rewrite <- E. cbn [with_w sr_w]. rewrite S1, S2, !Z.ltb_irrefl. reflexivity. }
  subst s'. apply end_step; auto. apply B.
Qed.
Lemma fail_version R m s e s' : 0 < R -> J R s -> live s ->
  fail s ABORT SProcVersion = Some (Ret s') -> grows R m s e s'.
Proof.
  intros HR HJ Hl E. destruct (fail_inv _ _ _ _ E (proj1 HJ)) as (w & -> & B & L).
  pose proof HJ as (J1 & J2 & J3 & J4 & J5).
  pose proof (told_better _ _ _ B) as T.
  set (s' := with_w s w SProcVersion). pose proof (gain_01 s e s').
  split; [|split; [reflexivity|split; [|split; [|split; [right; unfold live; discriminate|cbn; lia]]]]].
  - split; [apply B|split; [exact J2|split; [discriminate|split; [|exact J5]]]].
    cbn [sr_i sr_w s' with_w]. rewrite L. discriminate.
  - change (sr_conns s') with (sr_conns s). unfold D.
    assert (ff s <= ff s').
    { unfold ff; cbn [s' with_w sr_state sr_i sr_w]. unfold live in Hl. destruct (told (sr_i s) (sr_w s)).
      - rewrite (T eq_refl). destruct (sr_state s); lia.
      - destruct (sr_state s); destruct (told (sr_i s) w); lia || congruence. }
    assert (R * ff s <= R * ff s') by (apply Z.mul_le_mono_nonneg_l; lia).
    assert (0 <= R * gain s e s') by (apply Z.mul_nonneg_nonneg; lia).
    change (sr_ctr s') with (sr_ctr s). change (nv s') with (nv s).
    assert (pend s + vv s <= pend s' + vv s').
    { unfold pend, vv; cbn [s' with_w sr_state sr_resolved]. destruct (sr_state s); lia. }
    lia.
  - intros _. split; [exact Hl|]. apply gain_good; [reflexivity|exact B].
Qed.

Lemma connect_step o s nr d mm e s' : 0 < so_transfer o -> (forall r, e <> ILocal r) -> J (so_transfer o) s -> sr_state s = SConnect ->
  connect o s nr d mm = Some (Ret s') -> grows (so_transfer o) (most o) s e s'.
Proof.
  intros HR Hg HJ Hs. pose proof HJ as (J1 & J2 & J3 & J4 & J5).
  assert (Hl : live s) by (unfold live; congruence).
  unfold connect. destruct (sr_socket s && negb (nr =? OK)); [apply fail_end; auto|].
  destruct (Z.leb_spec (so_transfer o) (sr_ctr s)) as [Hc|Hc].
  { destruct (sr_socket s); [apply fail_end; auto|discriminate]. }
  destruct (connectToReceiver (so_retries o) d) as [[code n]|] eqn:Ec; [|discriminate].
  apply connect_bound in Ec. fold (most o) in Ec.
  set (s1 := dialled s (code =? OK) n).
  assert (O1 : okS (sr_w s1)) by exact J1.
  assert (Fin : forall cd s', fail s1 cd SEnd = Some (Ret s') -> grows (so_transfer o) (most o) s e s').
  { intros cd s2 E. destruct (fail_inv _ _ _ _ E O1) as (w & -> & B & L).
    apply end_step; auto; [apply gain_other, Hg|apply B|]. right. split; [exact Hs|]. split; [reflexivity|].
    cbn [with_w sr_dials s1 dialled]. lia. }
  destruct (code =? ABORT) eqn:Ea.
  { destruct mm; [|apply Fin]. intros E.
    destruct (fail_inv _ _ _ _ E O1) as (w & -> & B & L).
    pose proof (told_better _ _ _ B) as T. cbn [s1 dialled sr_i sr_w] in B, T, L.
    set (s2 := with_w s1 w SProcVersion). pose proof (gain_01 s e s2).
    split; [|split; [reflexivity|split; [|split; [|split; [right; unfold live; discriminate|cbn; lia]]]]].
    - split; [apply B|split; [exact J2|split; [discriminate|split; [|cbn; lia]]]].
      intros _. change (local_of (sr_i s) w <> OK). rewrite L. discriminate.
    - change (sr_conns s2) with (sr_conns s + 1). unfold D. change (sr_ctr s2) with (sr_ctr s).
      assert (ff s <= ff s2).
      { unfold ff; cbn [s2 s1 dialled with_w sr_state sr_i sr_w]. rewrite Hs. destruct (told (sr_i s) (sr_w s)).
        - rewrite (T eq_refl). lia.
        - destruct (told (sr_i s) w); lia. }
      assert (so_transfer o * ff s <= so_transfer o * ff s2) by (apply Z.mul_le_mono_nonneg_l; lia).
      assert (0 <= so_transfer o * gain s e s2) by (apply Z.mul_nonneg_nonneg; lia).
      assert (nv s <= nv s2).
      { unfold nv; cbn [s2 s1 dialled with_w sr_conns]. destruct (Z.eqb_spec (sr_conns s) 0); destruct (Z.eqb_spec (sr_conns s + 1) 0); lia. }
      assert (pend s = 0 /\ pend s2 = 0 /\ vv s2 = vv s + 1).
      { unfold pend, vv; cbn [s2 s1 dialled with_w sr_state sr_resolved]. rewrite Hs. lia. }
      lia.
    - intros _. split; [exact Hl|]. apply gain_good; [reflexivity|exact B]. }
  destruct (negb (code =? OK)); [apply Fin|].
  intros E. destruct (fail_inv _ _ _ _ E O1) as (w & -> & B & L).
  pose proof (told_better _ _ _ B) as T. cbn [s1 dialled sr_i sr_w] in B, T, L.
  change (local_error s) with (local_of (sr_i s) (sr_w s)).
  set (st := if negb (local_of (sr_i s) (sr_w s) =? OK) then SLocal else SSettings).
  set (s2 := with_w s1 w st). pose proof (gain_01 s e s2).
  assert (Hst : st = SLocal \/ (st = SSettings /\ sr_conns s = 0)).
  { unfold st. destruct (local_of (sr_i s) (sr_w s) =? OK) eqn:El; cbn [negb]; [|left; reflexivity].
    right. split; [reflexivity|]. apply Z.eqb_eq in El. rewrite Hs in J4. cbn [failing] in J4.
    destruct (Z.eqb_spec (sr_conns s) 0); [assumption|]. exfalso. apply J4; [reflexivity|exact El]. }
  split; [|split; [reflexivity|split; [|split; [|split; [left; apply gain_other, Hg|cbn; lia]]]]].
  - split; [apply B|split; [exact J2|split; [intros _; exact Hc|split; [|cbn; lia]]]].
    change (failing st (sr_conns s + 1) = true -> local_of (sr_i s) w <> OK).
    destruct Hst as [-> | (-> & _)]; discriminate.
  - change (sr_conns s2) with (sr_conns s + 1). unfold D. change (sr_ctr s2) with (sr_ctr s).
    assert (ff s <= ff s2).
    { unfold ff; cbn [s2 s1 dialled with_w sr_state sr_i sr_w]. rewrite Hs. destruct (told (sr_i s) (sr_w s)).
      - rewrite (T eq_refl). destruct st; lia.
      - destruct st; destruct (told (sr_i s) w); lia. }
    assert (so_transfer o * ff s <= so_transfer o * ff s2) by (apply Z.mul_le_mono_nonneg_l; lia).
    assert (0 <= so_transfer o * gain s e s2) by (apply Z.mul_nonneg_nonneg; lia).
    assert (pend s = 0 /\ vv s2 = vv s).
    { unfold pend, vv; cbn [s2 s1 dialled with_w sr_state sr_resolved]. rewrite Hs.
      destruct Hst as [-> | (-> & _)]; lia. }
    assert (nv s + 1 <= nv s2 + pend s2).
    { unfold nv, pend; cbn [s2 s1 dialled with_w sr_conns sr_state].
      destruct Hst as [-> | (-> & Hz)]; [|rewrite Hz; cbn; lia].
      destruct (Z.eqb_spec (sr_conns s) 0); destruct (Z.eqb_spec (sr_conns s + 1) 0); lia. }
    lia.
  - intros _. split; [exact Hl|]. apply gain_good; [reflexivity|exact B].
Qed.

Lemma local_step o s r s' : 0 < so_transfer o -> J (so_transfer o) s -> sr_state s = SLocal ->
  honest_event s (ILocal r) ->
  readLocalCheckPoint s r = Some (Ret s') -> grows (so_transfer o) (most o) s (ILocal r) s'.
Proof.
  intros HR HJ Hs Hh. pose proof HJ as (J1 & J2 & J3 & J4 & J5). specialize (J3 Hs).
  assert (Hl : live s) by (unfold live; congruence).
  unfold readLocalCheckPoint. destruct r as [| |c].
  - intros E. destruct (fail_inv _ _ _ _ E J1) as (w & -> & B & L). cbn [with_ctr sr_i sr_w] in B, L.
    pose proof (told_better _ _ _ B) as T.
    set (s2 := with_w _ w _). pose proof (gain_01 s (ILocal LShort) s2).
    split; [|split; [reflexivity|split; [|split; [|split; [right; unfold live; discriminate|cbn; lia]]]]].
    + split; [apply B|split; [cbn; lia|split; [discriminate|split; [|exact J5]]]].
      intros _. change (local_of (sr_i s) w <> OK). rewrite L. discriminate.
    + change (sr_conns s2) with (sr_conns s). unfold D. change (sr_ctr s2) with (sr_ctr s + 1).
      assert (ff s <= ff s2).
      { unfold ff; cbn [s2 with_w with_ctr sr_state sr_i sr_w]. rewrite Hs. destruct (told (sr_i s) (sr_w s)).
        - rewrite (T eq_refl). lia.
        - destruct (told (sr_i s) w); lia. }
      assert (so_transfer o * ff s <= so_transfer o * ff s2) by (apply Z.mul_le_mono_nonneg_l; lia).
      assert (0 <= so_transfer o * gain s (ILocal LShort) s2) by (apply Z.mul_nonneg_nonneg; lia).
      change (nv s2) with (nv s). change (vv s2) with ((if sr_resolved s then 1 else 0) + 0).
      assert (vv s = (if sr_resolved s then 1 else 0) + 0 /\ pend s = 1) by (unfold vv, pend; rewrite Hs; split; reflexivity).
      change (pend s2) with 0. lia.
    + intros _. split; [exact Hl|]. apply gain_good; [reflexivity|exact B].
  - apply fail_end; auto.
  - destruct (nth_error (sn_hist (sr_w s)) (sr_i s)) as [hi|] eqn:E2; [|discriminate].
    destruct (nth_error (sn_stats (sr_w s)) (sr_i s)) as [ts|] eqn:E3; [|discriminate].
    destruct (setCheckpoint hi ts c false) as [[[[e hi'] ts'] ret]| |] eqn:Es; try discriminate.
    destruct (Z.eqb_spec e INVALID_CHECKPOINT) as [Ei|Ei]; [apply fail_end; auto|].
    intros E. apply act_inv in E. destruct E as (w & Ew & E). injection E as <-.
    destruct Hh as (Hb & Ht). specialize (Ht _ E2). pose proof (Hb _ E2) as Hw.
    assert (B : better (sr_i s) (sr_w s) w)
      by (apply (better_step _ _ (ALocal (sr_i s) c) _ J1 Hb Ew); intros; discriminate).
    destruct (local_good _ _ _ _ _ _ _ _ _ J1 E2 E3 Es Ei Hw Ht Ew) as (T' & G).
    set (s2 := with_ctr _ _). pose proof (gain_01 s (ILocal (LGood c)) s2).
    assert (Fr : gain s (ILocal (LGood c)) s2 = 0 -> confirmed_blocks (sr_i s) w <= confirmed_blocks (sr_i s) (sr_w s) /\
                 confirmed_bytes w <= confirmed_bytes (sr_w s)).
    { unfold gain, gained; cbn [s2 with_ctr with_w sr_w].
      destruct (Z.ltb_spec (confirmed_blocks (sr_i s) (sr_w s)) (confirmed_blocks (sr_i s) w)); [discriminate|].
      destruct (Z.ltb_spec (confirmed_bytes (sr_w s)) (confirmed_bytes w)); [discriminate|]. lia. }
    assert (Hctr : 0 <= sr_ctr s2 <= so_transfer o).
    { cbn [s2 with_ctr sr_ctr]. destruct (e =? NO_PROGRESS); lia. }
    split; [|split; [reflexivity|split; [|split; [|split; [right; unfold live; discriminate|cbn; lia]]]]].
    + split; [apply B|split; [exact Hctr|split; [discriminate|split; [discriminate|exact J5]]]].
    + change (sr_conns s2) with (sr_conns s). unfold D.
      change (nv s2) with (nv s). change (vv s2) with ((if sr_resolved s then 1 else 0) + 0).
      assert (vv s = (if sr_resolved s then 1 else 0) + 0 /\ pend s = 1) by (unfold vv, pend; rewrite Hs; split; reflexivity).
      change (pend s2) with 0.
      assert (F2 : ff s2 = 1) by (unfold ff; cbn [s2 with_ctr with_w sr_state sr_i sr_w]; rewrite T'; reflexivity).
      assert (F1 : ff s = if told (sr_i s) (sr_w s) then 1 else 0) by (unfold ff; rewrite Hs; reflexivity).
      rewrite F2, F1. cbn [s2 with_ctr sr_ctr] in *.
      destruct (Z.eqb_spec e NO_PROGRESS) as [En|En].
      { assert (0 <= so_transfer o * gain s (ILocal (LGood c)) s2) by (apply Z.mul_nonneg_nonneg; lia).
        destruct (told (sr_i s) (sr_w s)); lia. }
      destruct (told (sr_i s) (sr_w s)) eqn:Et.
      * assert (gain s (ILocal (LGood c)) s2 = 1).
        { destruct (Z.eq_dec (gain s (ILocal (LGood c)) s2) 0) as [X|X]; [|lia].
          specialize (Fr X). destruct (G En eq_refl); lia. }
        replace (gain s (ILocal (LGood c)) s2) with 1 by assumption. lia.
      * assert (0 <= so_transfer o * gain s (ILocal (LGood c)) s2) by (apply Z.mul_nonneg_nonneg; lia). lia.
    + intros _. split; [exact Hl|]. apply gain_good; [reflexivity|exact B].
Qed.

Lemma step_grows o s e s' : 0 < so_transfer o -> J (so_transfer o) s -> honest_event s e ->
  sr_step o s e = Some (Ret s') -> grows (so_transfer o) (most o) s e s'.
Proof.
  intros HR HJ Hh. pose proof HJ as (J1 & J2 & J3 & J4 & J5).
  assert (Own : forall a, foreign (sr_i s) a = false -> (forall r, a <> ASend (sr_i s) r) ->
     believable (sr_w s) a -> forall w, sn_step (sr_w s) a = Some (Ret w) -> better (sr_i s) (sr_w s) w).
  { intros a _ N B w E. apply (better_step _ _ _ _ J1 B E). intros r hi Ea. exfalso. exact (N r Ea). }
  destruct e; cbn [sr_step].
  1: { destruct mismatch, (sr_state s) eqn:Hs; intros E; try discriminate;
       (assert (Hl : live s) by (unfold live; congruence));
       first [eapply fail_version; eassumption|eapply fail_end; eassumption]. }
  18: { destruct (foreign (sr_i s) a) eqn:Ef; [|discriminate]. intros E. apply act_inv in E.
        destruct E as (w & Ew & E). injection E as <-. apply other_step; auto. }
  all: destruct (sr_state s) eqn:Hs; try discriminate;
       (assert (Hl : live s) by (unfold live; congruence)).
  - apply connect_step; auto; congruence.
  - apply local_step; auto.
  - destruct written.
    + intros E; injection E as <-. destruct chunks; apply plain_step; auto; try apply better_refl; auto;
        cbn; congruence.
    + apply fail_step; auto; try congruence; discriminate.
  - intros E; injection E as <-. apply plain_step; auto; try apply better_refl; auto; cbn; congruence.
  - intros E. apply act_inv in E. destruct E as (w & Ew & E). injection E as <-.
    assert (B : better (sr_i s) (sr_w s) w).
    { apply (Own (ATake (sr_i s) j opened)); auto; try discriminate; try exact I; cbn; rewrite Nat.eqb_refl; reflexivity. }
    destruct (nth_error (sn_flight w) (sr_i s)) as [[h|]|]; apply plain_step; auto; cbn; congruence.
  - intros E; injection E as <-. apply plain_step; auto; try apply better_refl; auto; cbn; congruence.
  - unfold finishBlock. intros E. apply act_inv in E. destruct E as (w & Ew & E).
    destruct (world_step _ _ _ J1 Hh Ew) as (W1 & W2 & W3 & _).
    destruct (global_seen s) eqn:Eg.
    + destruct (fail_inv _ _ _ _ E W1) as (w2 & -> & B & L). apply end_step; auto; try reflexivity. apply B.
    + assert (B : better (sr_i s) (sr_w s) w).
      { split; [exact W1|split; [exact W2|]]. apply W3. intros r0 hi _ Eh. unfold global_seen in Eg.
        rewrite Eh in Eg. exact Eg. }
      destruct r as [hdr|code hdr data]; injection E as <-; apply plain_step; auto; try (cbn; congruence).
      intros _. cbn [with_w sr_i sr_w]. cbn [sn_step] in Ew. unfold nthd in Ew.
      destruct (nth_error (sn_flight (sr_w s)) (sr_i s)) as [[h|]|] eqn:E1; try discriminate.
      destruct (nth_error (sn_hist (sr_w s)) (sr_i s)) as [hi|] eqn:E2; try discriminate.
      destruct (nth_error (sn_stats (sr_w s)) (sr_i s)) as [ts|] eqn:E3; try discriminate.
      unfold global_seen in Eg. rewrite E2 in Eg. unfold addSource in Ew. rewrite Eg in Ew.
      injection Ew as <-. unfold local_of, upd_thread; cbn [sn_stats]. rewrite (nth_set_same _ _ _ _ E3).
      cbn [stats_add st_local sendStats]. unfold getMoreInterestingError, OK.
      destruct code; cbn; unfold SOCKET_WRITE_ERROR, ABORT, BYTE_SOURCE_READ_ERROR; lia.
  - destruct written.
    + intros E; injection E as <-. apply plain_step; auto; try apply better_refl; auto; cbn; congruence.
    + apply fail_step; auto; try congruence; discriminate.
  - destruct written.
    + intros E; injection E as <-. apply plain_step; auto; try apply better_refl; auto; cbn; congruence.
    + apply fail_step; auto; try congruence; discriminate.
  - specialize (J4 eq_refl). intros E; injection E as <-. destruct abortCmd; apply plain_step; auto; try apply better_refl; auto; cbn; congruence.
  - destruct r; try (intros E; injection E as <-; apply plain_step; auto; try apply better_refl; auto; cbn; congruence).
    + destruct (Z.eqb_spec e OK); [discriminate|]. apply fail_step; auto; congruence.
    + apply fail_step; auto; try congruence; discriminate.
    + apply fail_end; auto.
  - destruct r; try (intros E; injection E as <-; apply plain_step; auto; try apply better_refl; auto; cbn; congruence).
    + destruct (Z.eqb_spec e OK); [discriminate|]. apply fail_step; auto; congruence.
    + apply fail_step; auto; try congruence; discriminate.
    + apply fail_end; auto.
    + apply fail_end; auto.
  - intros E. apply act_inv in E. destruct E as (w & Ew & E).
    assert (B : better (sr_i s) (sr_w s) w).
    { apply (Own (AAckAll (sr_i s))); auto; try discriminate; try exact I; cbn; rewrite Nat.eqb_refl; reflexivity. }
    destruct (Z.eqb_spec e OK) as [He|He].
    + injection E as <-. apply end_step; auto; try reflexivity. apply B.
    + destruct (fail_inv _ _ _ _ E (proj1 B)) as (w2 & -> & B2 & L).
      apply plain_step; auto; cbn [with_w sr_i sr_w sr_state sr_conns] in *; try congruence.
      apply (better_trans _ _ _ _ B B2).
  - intros E. apply act_inv in E. destruct E as (w & Ew & E). injection E as <-.
    assert (B : better (sr_i s) (sr_w s) w).
    { apply (Own (AAckAll (sr_i s))); auto; try discriminate; try exact I; cbn; rewrite Nat.eqb_refl; reflexivity. }
    apply plain_step; auto; cbn; congruence.
  - intros E. apply act_inv in E. destruct E as (w & Ew & E).
    assert (B : better (sr_i s) (sr_w s) w).
    { apply (Own (AAckAll (sr_i s))); auto; try discriminate; try exact I; cbn; rewrite Nat.eqb_refl; reflexivity. }
    destruct r.
    + destruct (fail_inv _ _ _ _ E (proj1 B)) as (w2 & -> & B2 & L).
      apply plain_step; auto; cbn [with_w sr_i sr_w sr_state sr_conns] in *; try congruence.
      * apply (better_trans _ _ _ _ B B2).
      * rewrite L. discriminate.
    + destruct (fail_inv _ _ _ _ E (proj1 B)) as (w2 & -> & B2 & L). apply end_step; auto; try reflexivity. apply B2.
    + injection E as <-. apply plain_step; auto; cbn; congruence.
  - destruct mismatch; [apply fail_version; auto|apply fail_end; auto].
  - specialize (J4 eq_refl). destruct (sr_resolved s) eqn:Er.
    { intros E; injection E as <-. apply end_step; auto; try reflexivity. }
    destruct resolved; intros E; injection E as <-; [|apply end_step; auto].
    set (s2 := with_w _ _ _). pose proof (gain_01 s (IVersion true) s2).
    split; [|split; [reflexivity|split; [|split; [|split; [right; unfold live; discriminate|cbn; lia]]]]].
    + split; [exact J1|split; [exact J2|split; [discriminate|split; [|exact J5]]]].
      intros _. exact J4.
    + change (sr_conns s2) with (sr_conns s). unfold D. change (sr_ctr s2) with (sr_ctr s).
      change (nv s2) with (nv s).
      assert (ff s2 = ff s) by (unfold ff; cbn [s2 with_w with_resolved sr_state sr_i sr_w]; rewrite Hs; reflexivity).
      assert (vv s2 = 1 /\ vv s = 1) by (unfold vv; cbn [s2 with_w with_resolved sr_state sr_resolved]; rewrite Hs, Er; split; reflexivity).
      assert (pend s2 = 0 /\ pend s = 0) by (unfold pend; cbn [s2 with_w with_resolved sr_state]; rewrite Hs; split; reflexivity).
      assert (0 <= so_transfer o * gain s (IVersion true) s2) by (apply Z.mul_nonneg_nonneg; lia).
      replace (ff s2) with (ff s) by congruence. lia.
    + intros _. split; [exact Hl|]. apply gain_good; [reflexivity|apply better_refl; exact J1].
Qed.

(** ** Runs *)
Lemma good_bound s R : J R s -> good s <= found_blocks (sr_w s) + found_bytes (sr_w s).
Proof.
  intros (OK & _). pose proof OK as (Q & F & H & X).
  assert (A : confirmed_blocks (sr_i s) (sr_w s) <= found_blocks (sr_w s)).
  { unfold confirmed_blocks. destruct (nth_error (sn_hist (sr_w s)) (sr_i s)) as [hi|] eqn:E; [|unfold found_blocks, zlen; lia].
    destruct (Forall_nth_error _ _ _ _ H E) as (_ & _ & Hl).
    assert (L : zlen (hi_list hi) <= found_blocks (sr_w s)).
    { unfold found_blocks, all_blocks, zlen. rewrite !app_length.
      apply nth_error_split in E. destruct E as (l1 & l2 & -> & _). rewrite flat_map_app. cbn [flat_map].
      rewrite !app_length. lia. }
    destruct (hi_last hi); [lia|unfold found_blocks, zlen; lia]. }
  assert (B : confirmed_bytes (sr_w s) <= found_bytes (sr_w s)).
  { unfold confirmed_bytes, found_bytes.
    assert (Z0 : 0 <= zsum (fun h => s_size (h_src h)) (all_blocks (sr_w s))).
    { apply zsum_nonneg. intros h Hh. apply in_all in Hh.
      rewrite Forall_forall in Q, F, H, X. destruct Hh as [Hh|[Hh|[(hi & H1 & H2)|Hh]]].
      - apply Q, Hh.
      - apply (F _ Hh).
      - destruct (H _ H1) as (Hs & _). rewrite Forall_forall in Hs. apply Hs, H2.
      - apply X, Hh. }
    assert (E : zsum (fun h => h_n h - s_size (h_src h) + s_size (h_src h)) (all_blocks (sr_w s)) =
                zsum h_n (all_blocks (sr_w s))) by (apply zsum_ext; intros; lia).
    rewrite (zsum_add (fun h => h_n h - s_size (h_src h)) (fun h => s_size (h_src h))) in E. lia. }
  unfold good. lia.
Qed.

Lemma step_found o s e s' : honest_event s e -> sr_step o s e = Some (Ret s') ->
  found_blocks (sr_w s) <= found_blocks (sr_w s') /\ found_bytes (sr_w s) <= found_bytes (sr_w s').
Proof.
  intros Hh.
  assert (Fl : forall s c st s', fail s c st = Some (Ret s') ->
    found_blocks (sr_w s) <= found_blocks (sr_w s') /\ found_bytes (sr_w s) <= found_bytes (sr_w s')).
  { intros s0 c st s2 E. apply act_inv in E. destruct E as (w & Ew & E). injection E as <-.
    apply (better_found _ _ _ Ew I). }
  assert (Ac : forall a w, sn_step (sr_w s) a = Some (Ret w) -> (forall x, a <> ADiscover x) ->
    found_blocks (sr_w s) <= found_blocks w /\ found_bytes (sr_w s) <= found_bytes w).
  { intros a w E N. destruct (found_step _ _ _ E) as (F1 & F2).
    destruct a; try lia. exfalso; eapply N; reflexivity. }
  destruct e; cbn [sr_step].
  1: destruct (sr_state s); try discriminate; apply Fl.
  18: { destruct (foreign _ _); [|discriminate]. intros E. apply act_inv in E. destruct E as (w & Ew & E).
        injection E as <-. apply (better_found _ _ _ Ew Hh). }
  all: destruct (sr_state s); try discriminate.
  - unfold connect. destruct (_ && _); [apply Fl|]. destruct (_ <=? _).
    { destruct (sr_socket s); [apply Fl|discriminate]. }
    destruct (connectToReceiver _ _) as [[code n]|]; [|discriminate].
    destruct (code =? ABORT); [intros E; apply Fl in E; exact E|].
    destruct (negb (code =? OK)); intros E; apply Fl in E; exact E.
  - unfold readLocalCheckPoint. destruct r as [| |c]; [intros E; apply Fl in E; exact E|apply Fl|].
    destruct (nth_error _ _) as [hi|]; [|discriminate]. destruct (nth_error _ _) as [ts|]; [|discriminate].
    destruct (setCheckpoint _ _ _ _) as [[[[e ?] ?] ?]| |]; try discriminate.
    destruct (e =? _); [apply Fl|]. intros E. apply act_inv in E. destruct E as (w & Ew & E). injection E as <-.
    apply (Ac _ _ Ew); discriminate.
  - destruct written; [|apply Fl]. intros E; injection E as <-. cbn [with_w sr_w]. lia.
  - intros E; injection E as <-. cbn [with_w sr_w]. lia.
  - intros E. apply act_inv in E. destruct E as (w & Ew & E). injection E as <-. apply (Ac _ _ Ew); discriminate.
  - intros E; injection E as <-. cbn [with_w sr_w]. lia.
  - unfold finishBlock. intros E. apply act_inv in E. destruct E as (w & Ew & E).
    apply Ac in Ew; [|discriminate]. destruct (global_seen s).
    + apply Fl in E. cbn [with_w sr_w] in E. lia.
    + destruct r; injection E as <-; exact Ew.
  - destruct written; [|apply Fl]. intros E; injection E as <-. cbn [with_w sr_w]. lia.
  - destruct written; [|apply Fl]. intros E; injection E as <-. cbn [with_w sr_w]. lia.
  - intros E; injection E as <-. cbn [with_w sr_w]. lia.
  - destruct r; try (apply Fl); try (intros E; injection E as <-; cbn [with_w sr_w]; lia).
    destruct (e =? OK); [discriminate|apply Fl].
  - destruct r; try (apply Fl); try (intros E; injection E as <-; cbn [with_w sr_w]; lia).
    destruct (e =? OK); [discriminate|apply Fl].
  - intros E. apply act_inv in E. destruct E as (w & Ew & E). apply Ac in Ew; [|discriminate].
    destruct (e =? OK); [injection E as <-; exact Ew|]. apply Fl in E. cbn [with_w sr_w] in E. lia.
  - intros E. apply act_inv in E. destruct E as (w & Ew & E). apply Ac in Ew; [|discriminate]. injection E as <-. exact Ew.
  - intros E. apply act_inv in E. destruct E as (w & Ew & E). apply Ac in Ew; [|discriminate].
    destruct r; [apply Fl in E; cbn [with_w sr_w] in E; lia|apply Fl in E; cbn [with_w sr_w] in E; lia|].
    injection E as <-; exact Ew.
  - apply Fl.
  - destruct (sr_resolved s); [|destruct resolved]; intros E; injection E as <-; cbn; lia.
Qed.

Lemma run_grows o : 0 < so_transfer o -> forall l s s', J (so_transfer o) s -> honest o s l ->
  sr_run o s l = Some (Ret s') ->
  J (so_transfer o) s' /\
  sr_conns s' - sr_conns s <= D (so_transfer o) s' - D (so_transfer o) s + so_transfer o * gains o s l /\
  0 <= sr_dials s' - sr_dials s <= most o * (sr_conns s' - sr_conns s) /\
  forall g, (live s -> g <= good s) -> g <= found_blocks (sr_w s) + found_bytes (sr_w s) ->
    g + gains o s l <= found_blocks (sr_w s') + found_bytes (sr_w s').
Proof.
  intros HR. induction l as [|e l IH]; intros s s' HJ Hh E; cbn [sr_run gains honest] in *.
  { injection E as <-. split; [exact HJ|split; [lia|split; [lia|intros; lia]]]. }
  destruct Hh as (Hh & Hr). destruct (sr_step o s e) as [[s1| |]|] eqn:Es; try discriminate.
  destruct (step_grows _ _ _ _ HR HJ Hh Es) as (J1 & Ei & G1 & G2 & G3 & G4).
  destruct (IH _ _ J1 Hr E) as (J2 & K1 & K2 & K3).
  destruct (step_found _ _ _ _ Hh Es) as (F1 & F2).
  fold (gain s e s1).
  split; [exact J2|split; [lia|split; [lia|]]].
  intros g Hg Hb. rewrite Z.add_assoc. apply K3.
  - intros Hl. destruct (G2 Hl) as (Hl0 & Hgd). specialize (Hg Hl0). lia.
  - destruct G3 as [G3|G3]; [lia|]. destruct (G2 G3) as (Hl0 & Hgd). specialize (Hg Hl0).
    pose proof (good_bound _ _ J1). lia.
Qed.

Lemma D_bounds R s : 0 < R -> J R s ->
  0 <= D R s <= 2 * R + 3 /\ (told (sr_i s) (sr_w s) = true -> R <= D R s).
Proof.
  intros HR (_ & J2 & J3 & _ & J5). unfold D.
  assert (0 <= sr_ctr s + pend s <= R).
  { unfold pend. destruct (sr_state s); try specialize (J3 eq_refl); lia. }
  assert (0 <= nv s <= 1) by (unfold nv; destruct (_ =? _); lia).
  assert (0 <= vv s <= 2) by (unfold vv; destruct (sr_resolved s); destruct (sr_state s); lia).
  assert (0 <= ff s <= 1) by (unfold ff; destruct (told (sr_i s) (sr_w s)); destruct (sr_state s); lia).
  assert (0 <= R * ff s <= R * 1) by (split; [apply Z.mul_nonneg_nonneg|apply Z.mul_le_mono_nonneg_l]; lia).
  split; [lia|]. intros T. assert (ff s = 1) by (unfold ff; rewrite T; destruct (sr_state s); reflexivity).
  replace (ff s) with 1 in * by lia. lia.
Qed.

Lemma J_init R n i : 0 < R -> J R (sthread_new (sender_init n) i).
Proof.
  intros HR. split; [|cbn; repeat split; try lia; discriminate].
  unfold okS, sthread_new, sender_init; cbn [sr_w sn_queue sn_flight sn_hist sn_failed].
  split; [constructor|split; [|split; [|constructor]]]; apply Forall_forall; intros x Hx;
    apply repeat_spec in Hx; subst x; [exact I|].
  split; [constructor|]. split; cbn; [lia|exact I].
Qed.

Lemma run_app o l1 : forall l2 s s1, sr_run o s l1 = Some (Ret s1) -> sr_run o s (l1 ++ l2) = sr_run o s1 l2.
Proof.
  induction l1 as [|e l1 IH]; intros l2 s s1 E; cbn [sr_run app] in *.
  { injection E as <-; reflexivity. }
  destruct (sr_step o s e) as [[s2| |]|]; try discriminate. apply IH, E.
Qed.
Lemma honest_app o l1 : forall l2 s s1, sr_run o s l1 = Some (Ret s1) -> honest o s (l1 ++ l2) ->
  honest o s l1 /\ honest o s1 l2.
Proof.
  induction l1 as [|e l1 IH]; intros l2 s s1 E Hh; cbn [sr_run app honest] in *.
  { injection E as <-. split; [exact I|exact Hh]. }
  destruct (sr_step o s e) as [[s2| |]|]; try discriminate. destruct Hh as (H1 & H2).
  destruct (IH _ _ _ E H2) as (A & B). split; [split; assumption|exact B].
Qed.

Lemma total_reconnects o n i l s : 0 < so_transfer o ->
  honest o (sthread_new (sender_init n) i) l ->
  sr_run o (sthread_new (sender_init n) i) l = Some (Ret s) ->
  sr_conns s <= so_transfer o * (found_blocks (sr_w s) + found_bytes (sr_w s) + 2) + 3.
Proof.
  intros HR Hh E. set (s0 := sthread_new (sender_init n) i) in *.
  destruct (run_grows o HR l s0 s (J_init _ _ _ HR) Hh E) as (J1 & C1 & _ & C2).
  destruct (D_bounds _ _ HR J1) as (D1 & _). destruct (D_bounds _ _ HR (J_init _ n i HR)) as (D0 & _).
  fold s0 in D0.
  assert (S0 : confirmed_bytes (sender_init n) = 0 /\ found_bytes (sender_init n) = 0 /\ found_blocks (sender_init n) = 0).
  { assert (A : all_blocks (sender_init n) = []).
    { unfold all_blocks, sender_init; cbn [sn_queue sn_flight sn_hist sn_failed]. rewrite app_nil_r.
      assert (X : flights (repeat None n) = []) by (clear; unfold flights; induction n; cbn; auto).
      assert (Y : flat_map hi_list (repeat history_new n) = []) by (clear; induction n; cbn; auto).
      rewrite X, Y. reflexivity. }
    unfold confirmed_bytes, found_bytes, found_blocks. rewrite A. repeat split. }
  destruct S0 as (S1 & S2 & S3).
  assert (G : gains o s0 l <= found_blocks (sr_w s) + found_bytes (sr_w s)).
  { specialize (C2 0). rewrite Z.add_0_l in C2. apply C2; [|change (sr_w s0) with (sender_init n); lia].
    intros _. unfold good, confirmed_blocks. change (sr_w s0) with (sender_init n). rewrite S1.
    unfold sender_init; cbn [sn_hist]. destruct (nth_error (repeat history_new n) (sr_i s0)) as [hi|] eqn:Eh; [|lia].
    apply nth_error_In, repeat_spec in Eh. subst hi. cbn. lia. }
  assert (so_transfer o * gains o s0 l <= so_transfer o * (found_blocks (sr_w s) + found_bytes (sr_w s)))
    by (apply Z.mul_le_mono_nonneg_l; lia).
  change (sr_conns s0) with 0 in C1. lia.
Qed.

Lemma stretch_reconnects o n i l1 l2 s1 s2 : 0 < so_transfer o ->
  honest o (sthread_new (sender_init n) i) (l1 ++ l2) ->
  sr_run o (sthread_new (sender_init n) i) l1 = Some (Ret s1) ->
  sr_run o s1 l2 = Some (Ret s2) -> gains o s1 l2 = 0 ->
  sr_conns s2 - sr_conns s1 <= 2 * so_transfer o + 3 /\
  (told i (sr_w s1) = true -> sr_conns s2 - sr_conns s1 <= so_transfer o + 3).
Proof.
  intros HR Hh E1 E2 G0. destruct (honest_app _ _ _ _ _ E1 Hh) as (H1 & H2).
  destruct (run_grows o HR l1 _ s1 (J_init _ _ _ HR) H1 E1) as (J1 & _).
  destruct (run_grows o HR l2 s1 s2 J1 H2 E2) as (J2 & C & _).
  destruct (D_bounds _ _ HR J1) as (D1 & T1). destruct (D_bounds _ _ HR J2) as (D2 & _).
  rewrite G0 in C. split; [lia|]. intros T.
  assert (Ei : sr_i s1 = i).
  { clear -E1 HR H1. revert E1 H1. generalize (J_init (so_transfer o) n i HR).
    assert (X : sr_i (sthread_new (sender_init n) i) = i) by reflexivity. revert X.
    generalize (sthread_new (sender_init n) i). induction l1 as [|e l IH]; intros s X HJ E Hh; cbn [sr_run honest] in *.
    { injection E as <-. exact X. }
    destruct Hh as (Hh & Hr). destruct (sr_step o s e) as [[s2| |]|] eqn:Es; try discriminate.
    destruct (step_grows _ _ _ _ HR HJ Hh Es) as (J1 & Ei & _). apply (IH s2); auto. congruence. }
  rewrite <- Ei in T. specialize (T1 T). lia.
Qed.

Lemma attempts_bound o n i l s : 0 < so_transfer o ->
  honest o (sthread_new (sender_init n) i) l ->
  sr_run o (sthread_new (sender_init n) i) l = Some (Ret s) ->
  sr_dials s <= Z.max 1 (so_retries o) * sr_conns s.
Proof.
  intros HR Hh E. destruct (run_grows o HR l _ s (J_init _ n i HR) Hh E) as (_ & _ & C & _).
  cbn [sthread_new sr_dials sr_conns] in C. fold (most o). 
  replace (sr_conns s - 0) with (sr_conns s) in C by lia. lia.
Qed.

(** ** Waiting *)
Lemma wait_turn_waiting n t x n' t' : wait_turn n t x = Waiting n' t' <->
  timed_out x n' /\ 0 < n' < n /\ t' = t + 1.
Proof.
  unfold wait_turn, timed_out.
  destruct (Z.eqb_spec (tn_read x) 1) as [E|E]; [split; [discriminate|intros ((? & _) & _); lia]|].
  destruct (Z.eqb_spec (tn_abort x) OK) as [E1|E1]; cbn [negb]; [|split; [discriminate|intros ((_ & X & _) & _); contradiction]].
  destruct (Z.eqb_spec (tn_read x) 0) as [E2|E2]; [split; [discriminate|intros ((? & _) & _); lia]|].
  destruct (Z.leb_spec 0 (tn_read x)) as [E3|E3]; [split; [discriminate|intros ((? & _) & _); lia]|].
  destruct (Z.eqb_spec (tn_code x) WDT_TIMEOUT) as [E4|E4]; cbn [negb]; [|split; [discriminate|intros ((_ & _ & X & _) & _); contradiction]].
  destruct (Z.ltb_spec n 0) as [E5|E5]; cbn [orb]; [split; [discriminate|intros ((_ & _ & _ & X) & Y & _); lia]|].
  destruct (Z.ltb_spec (tn_unacked x) 0) as [E6|E6]; cbn [orb]; [split; [discriminate|intros ((_ & _ & _ & X) & Y & _); lia]|].
  destruct (Z.ltb_spec n (tn_unacked x)) as [E7|E7]; [split; [discriminate|intros ((_ & _ & _ & X) & Y & _); lia]|].
  destruct (Z.eqb_spec (tn_unacked x) 0) as [E8|E8]; [split; [discriminate|intros ((_ & _ & _ & X) & Y & _); lia]|].
  destruct (Z.eqb_spec (tn_unacked x) n) as [E9|E9]; [split; [discriminate|intros ((_ & _ & _ & X) & Y & _); lia]|].
  split.
  - intros X; injection X as <- <-. repeat split; auto; lia.
  - intros ((_ & _ & _ & X) & Y & ->). rewrite X. reflexivity.
Qed.

Lemma wait_loop_waiting l : forall n t, (exists n' t', wait_loop n t l = Waiting n' t') <-> draining n l.
Proof.
  induction l as [|x l IH]; intros n t; cbn [wait_loop].
  { split; [constructor|intros _; exists n, t; reflexivity]. }
  split.
  - intros (n' & t' & E). destruct (wait_turn n t x) as [m u|e|u|] eqn:Et; try discriminate.
    apply wait_turn_waiting in Et. destruct Et as (A & B & ->). econstructor; [exact A|exact B|].
    apply (IH m (t + 1)). exists n', t'; exact E.
  - intros H. inversion H as [|n0 x0 m l0 A B C]; subst.
    assert (Et : wait_turn n t x = Waiting m (t + 1)) by (apply wait_turn_waiting; auto).
    rewrite Et. apply IH, C.
Qed.

Lemma waits_iff u l f : readNextReceiverCmd u l f = None <-> draining u l.
Proof.
  rewrite <- (wait_loop_waiting l u 0). unfold readNextReceiverCmd.
  destruct (wait_loop u 0 l) as [n t|e|t|]; split; intros H; try discriminate; try reflexivity.
  - exists n, t; reflexivity.
  - destruct H as (? & ? & X); discriminate.
  - destruct H as (? & ? & X); discriminate.
  - destruct H as (? & ? & X); discriminate.
Qed.
Lemma draining_len n l : draining n l -> l = [] \/ zlen l < n.
Proof.
  induction 1 as [n|n x m l A B C IH]; [left; reflexivity|right].
  unfold zlen in *. cbn [length]. destruct IH as [->|IH]; cbn [length]; lia.
Qed.
Lemma waits_end u l f : Z.max 1 u <= zlen l -> exists r, readNextReceiverCmd u l f = Some r.
Proof.
  intros H. destruct (readNextReceiverCmd u l f) as [r|] eqn:E; [exists r; reflexivity|].
  apply waits_iff, draining_len in E. destruct E as [->|E]; [unfold zlen in H; cbn in H; lia|lia].
Qed.
Lemma waits_safe u l f : no_growth u l -> Forall (fun x => tn_read x <= 1) l ->
  readNextReceiverCmd u l f <> Some Crash.
Proof.
  unfold readNextReceiverCmd. generalize 0 at 1. intros t N H. revert t H.
  induction N as [u|u x l A B IH]; intros t H; cbn [wait_loop]; [discriminate|].
  inversion H as [|? ? Hx Hl]; subst.
  destruct (wait_turn u t x) as [m v|e|v|] eqn:Et; try discriminate.
  - pose proof Et as Eq. apply wait_turn_waiting in Eq. destruct Eq as ((_ & _ & _ & Em) & _). subst m. apply IH, Hl.
  - exfalso. revert Et. unfold wait_turn.
    destruct (Z.eqb_spec (tn_read x) 1); [discriminate|]. destruct (negb _); [discriminate|].
    destruct (Z.eqb_spec (tn_read x) 0); [discriminate|].
    destruct (Z.leb_spec 0 (tn_read x)); [lia|]. destruct (negb _); [discriminate|].
    destruct (_ || _); [discriminate|]. destruct (Z.ltb_spec u (tn_unacked x)); [lia|].
    destruct (tn_unacked x =? 0); [discriminate|]. destruct (tn_unacked x =? u); discriminate.
Qed.

(** ** What the answers mean *)
Lemma dial_verdict n : forall l a code k, (0 < n)%nat -> dial_loop n l a = Some (code, k) ->
  exists pre x post, l = pre ++ x :: post /\ k = a + zlen pre + 1 /\ zlen pre + 1 <= Z.of_nat n /\
    Forall goes_on pre /\ verdict (Z.of_nat n) (zlen pre + 1) x code.
Proof.
  induction n as [|n IH]; intros l a code k Hn; [lia|]. cbn [dial_loop].
  destruct l as [|(e, ab) l]; [discriminate|].
  destruct (Z.eqb_spec e OK) as [Eo|Eo].
  { intros E; injection E as <- <-. exists [], (e, ab), l. unfold zlen; cbn [length].
    split; [reflexivity|]. split; [lia|]. split; [lia|]. split; [constructor|]. left. split; [exact Eo|reflexivity]. }
  destruct (Z.eqb_spec e CONN_ERROR) as [Ec|Ec].
  { intros E; injection E as <- <-. exists [], (e, ab), l. unfold zlen; cbn [length].
    split; [reflexivity|]. split; [lia|]. split; [lia|]. split; [constructor|]. right; left. split; [exact Ec|reflexivity]. }
  destruct (Z.eqb_spec ab OK) as [Ea|Ea]; cbn [negb].
  2:{ intros E; injection E as <- <-. exists [], (e, ab), l. unfold zlen; cbn [length].
      split; [reflexivity|]. split; [lia|]. split; [lia|]. split; [constructor|]. right; right; left. auto. }
  assert (G : goes_on (e, ab)) by (repeat split; assumption).
  destruct n as [|n].
  { cbn [dial_loop]. intros E; injection E as <- <-. exists [], (e, ab), l. unfold zlen; cbn [length].
    split; [reflexivity|]. split; [lia|]. split; [lia|]. split; [constructor|]. right; right; right. auto. }
  intros E. apply IH in E; [|lia]. destruct E as (pre & x & post & -> & -> & B & F & V).
  exists ((e, ab) :: pre), x, post. split; [reflexivity|].
  assert (L : zlen ((e, ab) :: pre) = zlen pre + 1) by (unfold zlen; cbn [length]; lia). rewrite L.
  split; [lia|]. split; [lia|]. split; [constructor; assumption|].
  unfold verdict in *. destruct V as [V|[V|[V|(V1 & V2 & V3)]]]; [left; exact V|right; left; exact V|right; right; left; exact V|].
  right; right; right. split; [exact V1|]. split; [lia|exact V3].
Qed.
Lemma dials_verdict m l code n : connectToReceiver m (Dial l) = Some (code, n) ->
  exists pre x post, l = pre ++ x :: post /\ n = zlen pre + 1 /\ n <= Z.max 1 m /\
    Forall goes_on pre /\ verdict (Z.max 1 m) n x code.
Proof.
  unfold connectToReceiver. intros E.
  assert (M : (if m <? 1 then 1 else m) = Z.max 1 m) by (destruct (Z.ltb_spec m 1); lia).
  rewrite M in E. apply dial_verdict in E; [|lia]. rewrite Z2Nat.id in E by lia.
  destruct E as (pre & x & post & A & -> & B & F & V).
  exists pre, x, post. split; [exact A|]. split; [lia|]. split; [lia|]. split; [exact F|]. exact V.
Qed.

Lemma wait_answer l f : forall u t, (match wait_loop u t l with
                                     | Answered e => e = OK | Draining _ => f = 1 | _ => False end) <-> answered u l f.
Proof.
  induction l as [|x l IH]; intros u t; cbn [wait_loop].
  { split; [intros []|]. intros (pre & y & post & E & _). destruct pre; discriminate E. }
  destruct (wait_turn u t x) as [n' t'|e|t'|] eqn:Et.
  - pose proof Et as Eq. apply wait_turn_waiting in Eq. destruct Eq as (T & B & _).
    rewrite IH. split.
    + intros (pre & y & post & -> & D & A). exists (x :: pre), y, post. split; [reflexivity|].
      split; [econstructor; eassumption|]. destruct A as [A|(A1 & A2 & A3)]; [left; exact A|right].
      split; [exact A1|]. split; [exact A2|]. cbn [rev]. destruct (rev pre) as [|z r]; cbn [app]; [|exact A3].
      destruct T as (_ & _ & _ & ->). exact A3.
    + intros (pre & y & post & E & D & A). destruct pre as [|z pre]; cbn [app] in E; injection E as <- ->.
      * exfalso. destruct T as (T1 & _ & _ & T4). destruct A as [A|(A1 & _)]; [lia|].
        destruct A1 as (_ & _ & _ & A1). lia.
      * inversion D as [|? ? m ? T' B' D']; subst. assert (m = n') by (destruct T as (_ & _ & _ & <-), T' as (_ & _ & _ & <-); reflexivity).
        subst m. exists pre, y, post. split; [reflexivity|]. split; [exact D'|].
        destruct A as [A|(A1 & A2 & A3)]; [left; exact A|right]. split; [exact A1|]. split; [exact A2|].
        cbn [rev] in A3. destruct (rev pre) as [|z r]; cbn [app] in A3; [lia|exact A3].
  - split.
    + intros ->. exists [], x, l. split; [reflexivity|]. split; [constructor|]. left.
      unfold wait_turn in Et. destruct (Z.eqb_spec (tn_read x) 1); [assumption|]. exfalso. revert Et.
      repeat match goal with |- context[if ?b then _ else _] => destruct b end; discriminate.
    + intros (pre & y & post & E & D & A). destruct pre as [|z pre]; cbn [app] in E; injection E as <- ->.
      * unfold wait_turn in Et. destruct A as [A|((T1 & T2 & T3 & T4) & A2 & A3)].
        { rewrite A in Et. cbn in Et. injection Et as <-. reflexivity. }
        exfalso. cbn [rev] in A3. revert Et. destruct (Z.eqb_spec (tn_read x) 1); [lia|].
        rewrite T2, T3, T4. cbn [OK negb Z.eqb WDT_TIMEOUT].
        destruct (Z.eqb_spec (tn_read x) 0); [lia|]. destruct (Z.leb_spec 0 (tn_read x)); [lia|].
        destruct (Z.ltb_spec u 0); [lia|]. destruct (Z.ltb_spec u 0); [lia|]. discriminate.
      * exfalso. inversion D as [|? ? m ? T B D']; subst.
        assert (X : wait_turn u t x = Waiting m (t + 1)) by (apply wait_turn_waiting; auto). congruence.
  - split.
    + intros ->. exists [], x, l. split; [reflexivity|]. split; [constructor|]. right.
      revert Et. unfold wait_turn. destruct (Z.eqb_spec (tn_read x) 1); [discriminate|].
      destruct (Z.eqb_spec (tn_abort x) OK) as [E1|]; cbn [negb]; [|discriminate].
      destruct (Z.eqb_spec (tn_read x) 0); [discriminate|]. destruct (Z.leb_spec 0 (tn_read x)); [discriminate|].
      destruct (Z.eqb_spec (tn_code x) WDT_TIMEOUT) as [E2|]; cbn [negb]; [|discriminate].
      destruct (Z.ltb_spec u 0); [discriminate|]. destruct (Z.ltb_spec (tn_unacked x) 0); [discriminate|]. cbn [orb].
      destruct (Z.ltb_spec u (tn_unacked x)); [discriminate|].
      destruct (Z.eqb_spec (tn_unacked x) 0) as [E3|]; [|destruct (tn_unacked x =? u); discriminate].
      intros _. split; [repeat split; assumption|]. split; [reflexivity|]. cbn. assumption.
    + intros (pre & y & post & E & D & A). destruct pre as [|z pre]; cbn [app] in E; injection E as <- ->.
      * destruct A as [A|(_ & A & _)]; [|exact A]. exfalso. unfold wait_turn in Et. rewrite A in Et. discriminate Et.
      * exfalso. inversion D as [|? ? m ? T B D']; subst.
        assert (X : wait_turn u t x = Waiting m (t + 1)) by (apply wait_turn_waiting; auto). congruence.
  - split; [intros []|]. intros (pre & y & post & E & D & A). destruct pre as [|z pre]; cbn [app] in E; injection E as <- ->.
    + unfold wait_turn in Et. destruct A as [A|((T1 & T2 & T3 & T4) & A2 & A3)].
      { rewrite A in Et. discriminate Et. }
      cbn [rev] in A3. revert Et. destruct (Z.eqb_spec (tn_read x) 1); [lia|].
      rewrite T2, T3, T4. cbn [OK negb Z.eqb WDT_TIMEOUT].
      destruct (Z.eqb_spec (tn_read x) 0); [lia|]. destruct (Z.leb_spec 0 (tn_read x)); [lia|].
      destruct (Z.ltb_spec u 0); [lia|]. destruct (Z.ltb_spec u 0); [lia|]. discriminate.
    + inversion D as [|? ? m ? T B D']; subst.
      assert (X : wait_turn u t x = Waiting m (t + 1)) by (apply wait_turn_waiting; auto). congruence.
Qed.
Lemma answer_iff u l f : readNextReceiverCmd u l f = Some (Ret OK) <-> answered u l f.
Proof.
  rewrite <- (wait_answer l f u 0). unfold readNextReceiverCmd.
  destruct (wait_loop u 0 l) as [n t|e|t|]; split; intros H; try discriminate; try contradiction.
  - injection H as ->. reflexivity.
  - subst e. reflexivity.
  - destruct (Z.eqb_spec f 1); [assumption|discriminate H].
  - subst f. reflexivity.
Qed.

(** ** Runs that show the limits *)
Definition opts3 : sopts := {| so_retries := 2; so_transfer := 3 |}.
Definition dials_ok : dial := Dial [(OK, OK)].
(** A receiver that confirms bytes of two blocks nobody sent, in turn. *)
Definition lie (k : Z) : checkpoint :=
  {| ck_port := 0; ck_numBlocks := 0; ck_lastBlockSeqId := k; ck_lastBlockOffset := 0;
     ck_lastBlockReceivedBytes := 5; ck_hasSeqId := true |}.
Definition lie_turn (k : Z) : list sin := [IConnect OK dials_ok false; ILocal (LGood (lie k)); ISettings false false].
Definition lie_start : list sin := [IConnect OK dials_ok false; ISettings false false] ++ lie_turn 1.
Definition lied (c d : Z) : sthread :=
  match sr_run opts3 (sthread_new (sender_init 1) 0) lie_start with
  | Some (Ret s) => {| sr_w := sr_w s; sr_i := sr_i s; sr_state := sr_state s; sr_ctr := sr_ctr s;
                       sr_socket := sr_socket s; sr_resolved := sr_resolved s; sr_conns := c; sr_dials := d |}
  | _ => sthread_new (sender_init 1) 0
  end.
Lemma lie_loop c d : sr_run opts3 (lied c d) (lie_turn 2 ++ lie_turn 1) = Some (Ret (lied (c + 1 + 1) (d + 1 + 1))).
Proof. vm_compute. reflexivity. Qed.
Lemma lie_loops k : exists l d, sr_run opts3 (sthread_new (sender_init 1) 0) l =
  Some (Ret (lied (2 + 2 * Z.of_nat k) d)).
Proof.
  induction k as [|k (l & d & IH)].
  - exists lie_start, 2. vm_compute. reflexivity.
  - exists (l ++ lie_turn 2 ++ lie_turn 1), (d + 1 + 1).
    rewrite (run_app _ _ _ _ _ IH), lie_loop. do 3 f_equal. lia.
Qed.
Lemma liar_forever : forall k, exists l s, sr_run opts3 (sthread_new (sender_init 1) 0) l = Some (Ret s) /\
  k <= sr_conns s /\ found_blocks (sr_w s) = 0 /\ found_bytes (sr_w s) = 0.
Proof.
  intros k. destruct (lie_loops (Z.to_nat k)) as (l & d & E).
  exists l, (lied (2 + 2 * Z.of_nat (Z.to_nat k)) d). split; [exact E|].
  assert (C : forall c d, sr_conns (lied c d) = c) by (intros; vm_compute; reflexivity).
  rewrite C. split; [lia|]. split; vm_compute; reflexivity.
Qed.

(** A receiver that keeps saying WAIT. *)
Definition wait_start : list sin :=
  [IConnect OK dials_ok false; ISettings true false; INoSource; IDone true].
Definition wait_more : list sin := [IRecv RcWait; IProcWait].
Definition waited : sthread :=
  match sr_run opts3 (sthread_new (sender_init 1) 0) wait_start with
  | Some (Ret s) => s | _ => sthread_new (sender_init 1) 0 end.
Lemma wait_forever : forall k, exists l s, sr_run opts3 (sthread_new (sender_init 1) 0) l = Some (Ret s) /\
  (k <= length l)%nat /\ sr_conns s = 1 /\ sr_state s <> SEnd.
Proof.
  intros k.
  assert (G : exists l, sr_run opts3 (sthread_new (sender_init 1) 0) l = Some (Ret waited) /\ (k <= length l)%nat).
  { induction k as [|k (l & E & L)].
    - exists wait_start. split; [vm_compute; reflexivity|lia].
    - exists (l ++ wait_more). rewrite (run_app _ _ _ _ _ E). split; [vm_compute; reflexivity|].
      rewrite app_length. cbn. lia. }
  destruct G as (l & E & L). exists l, waited. split; [exact E|split; [exact L|split; [vm_compute; reflexivity|vm_compute; discriminate]]].
Qed.

(** A broken connection in the middle of a block, and how it goes on. *)
Definition file10 : source :=
  {| s_name := [97]; s_seqId := 7; s_fileSize := 10; s_alloc := NOT_EXISTS; s_prevSeqId := 0;
     s_offset := 0; s_size := 10; s_failed := 0 |}.
Definition got4 : checkpoint :=
  {| ck_port := 0; ck_numBlocks := 0; ck_lastBlockSeqId := 7; ck_lastBlockOffset := 0;
     ck_lastBlockReceivedBytes := 4; ck_hasSeqId := true |}.
Definition broken_run : list sin :=
  [IOther (ADiscover file10); IConnect OK (Dial [(CONN_ERROR_RETRYABLE, OK); (OK, OK)]) false; ISettings true false;
   ITake 0 true; ISend (SentPart WriteFailed 5 6); ICheck false].
Definition recovered_run : list sin :=
  [IConnect OK dials_ok false; ILocal (LGood got4); ISettings true false; ITake 0 true; ISend (SentAll 5);
   INoSource; IDone true; IRecv RcDone; IProcDone OK].
Definition after (l : list sin) : sthread :=
  match sr_run opts3 (sthread_new (sender_init 1) 0) l with Some (Ret s) => s | _ => sthread_new (sender_init 1) 0 end.
Ltac found_hist H := vm_compute in H; injection H as <-.
Lemma broken_honest : honest opts3 (sthread_new (sender_init 1) 0) (broken_run ++ recovered_run).
Proof.
  unfold broken_run, recovered_run. cbn [app].
  Ltac one := match goal with |- honest ?o ?s (?e :: ?l) =>
    let s' := eval vm_compute in (match sr_step o s e with Some (Ret x) => x | _ => s end) in
    cut (honest_event s e /\ honest o s' l);
    [let A := fresh in let B := fresh in intros (A & B); split; [exact A|];
      replace (sr_step o s e) with (Some (Ret s')) by (vm_compute; reflexivity); exact B|split] end.
  one; [vm_compute; discriminate|]. one; [exact I|]. one; [exact I|]. one; [exact I|].
  one; [intros hi h c Eh Eg; found_hist Eh; discriminate|].
  one; [exact I|]. one; [exact I|].
  one. { split.
    - intros hi Eh; found_hist Eh. split; [discriminate|split; [discriminate|]].
      intros h Hh _. found_hist Hh. vm_compute. discriminate.
    - intros hi Eh; found_hist Eh. intros _. right. eexists. split; [reflexivity|]. vm_compute. reflexivity. }
  one; [exact I|]. one; [exact I|].
  one; [intros hi h c Eh Eg; found_hist Eh; discriminate|].
  one; [exact I|]. one; [exact I|]. one; [exact I|]. one; [exact I|]. exact I.
Qed.
Definition tout (n : Z) : turn := {| tn_read := -1; tn_abort := OK; tn_code := WDT_TIMEOUT; tn_unacked := n |}.
Definition byte : turn := {| tn_read := 1; tn_abort := OK; tn_code := OK; tn_unacked := 0 |}.
Lemma tout_out n : timed_out (tout n) n.
Proof. split; [cbn; lia|split; [reflexivity|split; reflexivity]]. Qed.
