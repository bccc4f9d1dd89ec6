(** Every record of a connection is sound, whatever arrives and whatever the file
    side does. *)
From Verif Require Import Model.RecvConn Spec.BlockSpec Proofs.BytesFacts.

Local Opaque Z.pow Z.quot.

Definition waiting_ok (sum0 : bool) (l : list revent) (b : block_details) : Prop :=
  exists a m s, l = a ++ RHeader b :: m ++ RStored :: s /\ same_block m /\
    zlen (written m) = bd_dataSize b /\ checksums sum0 a = false.
Record J (sum0 : bool) (p : rparams) (c : rconn) : Prop := {
  j_sound : sound_record sum0 (rp_tags p) (rc_ev c);
  j_wait : Forall (waiting_ok sum0 (rc_ev c)) (rc_waiting c);
  j_sum : rc_checksum c = checksums sum0 (rc_ev c);
  j_tags : rp_tags p = false -> rc_waiting c = []
}.
(** Events that do not belong to a block. *)
Definition tagq (l : list revent) : Prop := forall e, In e l -> match e with RTag | RVerified _ => True | _ => False end.

Lemma checksums_app s a b : checksums s (a ++ b) = checksums (checksums s a) b.
Proof. apply fold_left_app. Qed.
Lemma checksums_tagq s q : tagq q -> checksums s q = s.
Proof.
  induction q as [|e q IH]; intros H; [reflexivity|]. cbn [checksums fold_left].
  assert (He := H e (or_introl eq_refl)).
  assert (IH' := IH (fun x Hx => H x (or_intror Hx))). unfold checksums in IH'.
  destruct e; try contradiction; exact IH'.
Qed.
Lemma written_app a b : written (a ++ b) = written a ++ written b.
Proof. apply flat_map_app. Qed.
Lemma written_tagq q : tagq q -> written q = [].
Proof.
  induction q as [|e q IH]; intros H; [reflexivity|]. cbn [written flat_map].
  assert (He := H e (or_introl eq_refl)).
  change (flat_map _ q) with (written q). rewrite IH by (intros x Hx; apply H; right; exact Hx).
  destruct e; try contradiction; reflexivity.
Qed.
Lemma tagq_nil : tagq [].
Proof. intros e []. Qed.
Lemma tagq_app a b : tagq a -> tagq b -> tagq (a ++ b).
Proof. intros Ha Hb e He. apply in_app_or in He as [He|He]; [exact (Ha e He)|exact (Hb e He)]. Qed.
Lemma same_block_tagq q : tagq q -> same_block q.
Proof. intros H e He. specialize (H e He). destruct e; auto. Qed.
Lemma same_block_app a b : same_block a -> same_block b -> same_block (a ++ b).
Proof. intros Ha Hb e He. apply in_app_or in He as [He|He]; [exact (Ha e He)|exact (Hb e He)]. Qed.
Lemma same_block_nil : same_block [].
Proof. intros e []. Qed.

Lemma waiting_ext sum0 l q b : waiting_ok sum0 l b -> waiting_ok sum0 (l ++ q) b.
Proof.
  intros (a & m & s & -> & H). exists a, m, (s ++ q). split; [|exact H].
  rewrite <- app_assoc. cbn [app]. rewrite <- app_assoc. reflexivity.
Qed.
Lemma sound_snoc sum0 tags l e : sound_record sum0 tags l ->
  match e with
  | RVerified b => may_confirm sum0 tags l b
  | RPartial b n => may_count_part sum0 tags l b n
  | _ => True
  end -> sound_record sum0 tags (l ++ [e]).
Proof.
  intros [H1 H2] He. split.
  - intros pre b post E. destruct post as [|x post _] using rev_ind.
    + apply app_inj_tail in E as [-> ->]. exact He.
    + change (RVerified b :: post ++ [x]) with ((RVerified b :: post) ++ [x]) in E.
      rewrite app_assoc in E. apply app_inj_tail in E as [-> _]. eapply H1; reflexivity.
  - intros pre b n post E. destruct post as [|x post _] using rev_ind.
    + apply app_inj_tail in E as [-> ->]. exact He.
    + change (RPartial b n :: post ++ [x]) with ((RPartial b n :: post) ++ [x]) in E.
      rewrite app_assoc in E. apply app_inj_tail in E as [-> _]. eapply H2; reflexivity.
Qed.
(** An uneventful event. *)
Definition plain (e : revent) : Prop :=
  match e with RVerified _ | RPartial _ _ | RSettings _ => False | _ => True end.
Lemma J_plain sum0 p c e : J sum0 p c -> plain e -> J sum0 p (log_ev c [e]).
Proof.
  intros [S W K T] He. constructor; cbn [log_ev rc_ev rc_waiting rc_checksum]; auto.
  - apply sound_snoc; auto. destruct e; auto; contradiction.
  - eapply Forall_impl; [|exact W]. intros b Hb. apply waiting_ext, Hb.
  - rewrite checksums_app, <- K. destruct e; try reflexivity; contradiction.
Qed.
(** The fields [J] looks at. *)
Lemma J_same sum0 p c c' : rc_ev c' = rc_ev c -> rc_waiting c' = rc_waiting c -> rc_checksum c' = rc_checksum c ->
  J sum0 p c -> J sum0 p c'.
Proof. intros E1 E2 E3 [S W K T]. constructor; rewrite ?E1, ?E2, ?E3; auto. Qed.

Lemma verify_all sum0 tags l w : sound_record sum0 tags l -> Forall (waiting_ok sum0 l) w ->
  sound_record sum0 tags ((l ++ [RTag]) ++ map RVerified w).
Proof.
  intros S. induction w as [|b w IH] using rev_ind; intros W.
  - cbn [map]. rewrite app_nil_r. apply sound_snoc; auto.
  - apply Forall_app in W as [W1 W2]. inversion W2 as [|? ? Hb _]; subst.
    rewrite map_app, app_assoc. cbn [map]. apply sound_snoc; [apply IH, W1|].
    destruct Hb as (a & m & s & -> & Hs & Hz & Hk).
    exists a, m, (s ++ [RTag] ++ map RVerified w). split; [|split; [exact Hs|split; [exact Hz|]]].
    + rewrite <- !app_assoc. cbn [app]. f_equal. f_equal. rewrite <- !app_assoc. reflexivity.
    + rewrite Hk. intros _. apply in_or_app. right. left. reflexivity.
Qed.
Lemma J_tag sum0 p c : J sum0 p c -> J sum0 p (on_tag c).
Proof.
  intros [S W K T]. constructor; cbn [on_tag with_wait log_ev rc_ev rc_waiting rc_checksum].
  - change (RTag :: map RVerified (rc_waiting c)) with ([RTag] ++ map RVerified (rc_waiting c)).
    rewrite app_assoc. apply verify_all; assumption.
  - constructor.
  - rewrite checksums_app, checksums_tagq; auto.
    intros e [<-|He]; [exact I|]. apply in_map_iff in He as (b & <- & _). exact I.
  - reflexivity.
Qed.

(** [c'] follows [c] with nothing of a block in between. *)
Record Follows (sum0 : bool) (p : rparams) (c c' : rconn) : Prop := {
  fo_J : J sum0 p c';
  fo_ev : exists q, rc_ev c' = rc_ev c ++ q /\ tagq q;
  fo_sum : rc_checksum c' = rc_checksum c
}.
Lemma Follows_refl sum0 p c : J sum0 p c -> Follows sum0 p c c.
Proof. intros H. constructor; auto. exists []. rewrite app_nil_r. split; [reflexivity|apply tagq_nil]. Qed.
Lemma Follows_trans sum0 p a b c : Follows sum0 p a b -> Follows sum0 p b c -> Follows sum0 p a c.
Proof.
  intros [J1 (q1 & E1 & T1) K1] [J2 (q2 & E2 & T2) K2]. constructor; auto; [|congruence].
  exists (q1 ++ q2). rewrite E2, E1, app_assoc. split; [reflexivity|apply tagq_app; auto].
Qed.
Lemma Follows_same sum0 p a c c' : rc_ev c' = rc_ev c -> rc_waiting c' = rc_waiting c -> rc_checksum c' = rc_checksum c ->
  Follows sum0 p a c -> Follows sum0 p a c'.
Proof. intros E1 E2 E3 [J1 Q K]. constructor; [eapply J_same; eassumption|rewrite E1; exact Q|congruence]. Qed.

Lemma sock_read_J sum0 p max l : forall c, J sum0 p c -> Follows sum0 p c (snd (sock_read l max c)).
Proof.
  induction l as [|[[|b bs]|] r IH]; intros c H.
  - cbn. eapply Follows_same with (c := c); try reflexivity. apply Follows_refl, H.
  - apply (IH c H).
  - cbn [sock_read]. destruct (zlen (b :: bs) <=? max);
      (eapply Follows_same with (c := c); [reflexivity|reflexivity|reflexivity|apply Follows_refl, H]).
  - cbn [sock_read]. eapply Follows_trans; [|apply IH, J_tag, H].
    constructor; [apply J_tag, H| |reflexivity]. eexists. split; [reflexivity|].
    intros e [<-|He]; [exact I|]. apply in_map_iff in He as (b & <- & _). exact I.
Qed.
Lemma conn_read_J sum0 p c pos max r c' : J sum0 p c -> conn_read c pos max = Ret (r, c') -> Follows sum0 p c c'.
Proof.
  intros H E. unfold conn_read in E. destruct (max <=? 0); [discriminate|].
  destruct (_ || _); [discriminate|]. pose proof (sock_read_J sum0 p max (rc_in c) c H) as F.
  destruct (sock_read (rc_in c) max c) as [[bs|] c1]; cbn [snd] in F; injection E as _ <-; auto.
  eapply Follows_same; [| | |exact F]; reflexivity.
Qed.
Lemma ral_loop_J sum0 p fail base max atLeast fuel : forall c len n c', J sum0 p c ->
  ral_loop fuel fail c base max atLeast len = Ret (n, c') -> Follows sum0 p c c'.
Proof.
  induction fuel as [|fuel IH]; intros c len n c' H E; cbn [ral_loop] in E;
    (destruct (atLeast <=? len); [injection E as _ <-; apply Follows_refl, H|]); [discriminate|].
  destruct (conn_read c (base + len) (max - len)) as [[r c1]| |] eqn:Er; try discriminate. cbn [obind] in E.
  pose proof (conn_read_J _ _ _ _ _ _ _ H Er) as F. destruct r as [bs|].
  - eapply Follows_trans; [exact F|]. eapply IH; [apply F|exact E].
  - injection E as _ <-. exact F.
Qed.
Lemma readAtLeast_J sum0 p c base max atLeast len n c' : J sum0 p c ->
  readAtLeast p c base max atLeast len = Ret (n, c') -> Follows sum0 p c c'.
Proof. intros H E. unfold readAtLeast in E. destruct (_ || _); [discriminate|]. eapply ral_loop_J; eassumption. Qed.

(** Inside a block: the record of the block so far. *)
Record InBlock (sum0 : bool) (p : rparams) (c : rconn) (b : block_details) (data : list Z) : Prop := {
  ib_J : J sum0 p c;
  ib_rec : exists a m, rc_ev c = a ++ RHeader b :: m /\ same_block m /\ written m = data /\
           checksums sum0 a = rc_checksum c
}.
Lemma InBlock_follows sum0 p c c' b data : InBlock sum0 p c b data -> Follows sum0 p c c' -> InBlock sum0 p c' b data.
Proof.
  intros [Hj (a & m & E & Hs & Hw & Hk)] [J2 (q & Eq & Tq) K]. constructor; auto.
  exists a, (m ++ q). rewrite Eq, E, <- app_assoc. cbn [app]. split; [reflexivity|].
  split; [apply same_block_app; auto using same_block_tagq|].
  split; [rewrite written_app, (written_tagq q Tq), app_nil_r; exact Hw|congruence].
Qed.
Lemma InBlock_write sum0 p c b data bs : InBlock sum0 p c b data -> InBlock sum0 p (log_ev c [RWrite bs]) b (data ++ bs).
Proof.
  intros [Hj (a & m & E & Hs & Hw & Hk)]. constructor; [apply J_plain; auto; exact I|].
  exists a, (m ++ [RWrite bs]). cbn [log_ev rc_ev rc_checksum]. rewrite E, <- app_assoc. cbn [app].
  split; [reflexivity|]. split; [apply same_block_app; auto; intros e [<-|[]]; exact I|].
  split; [rewrite written_app, Hw; cbn; rewrite app_nil_r; reflexivity|exact Hk].
Qed.
Lemma InBlock_same sum0 p c c' b data : rc_ev c' = rc_ev c -> rc_waiting c' = rc_waiting c -> rc_checksum c' = rc_checksum c ->
  InBlock sum0 p c b data -> InBlock sum0 p c' b data.
Proof. intros E1 E2 E3 [Hj H]. constructor; [eapply J_same; eassumption|rewrite E1, E3; exact H]. Qed.

Lemma crc_app' a b s : crc32c (a ++ b) s = crc32c b (crc32c a s).
Proof. apply fold_left_app. Qed.

Lemma data_loop_J sum0 p b ds fuel : forall c total sum writes aborts r data,
  InBlock sum0 p c b data -> zlen data = total -> (rc_checksum c = true -> sum = crc32c data 0) ->
  data_loop fuel c ds total sum writes aborts = Ret r ->
  match r with
  | LDone t s c' => exists data', InBlock sum0 p c' b data' /\ zlen data' = t /\
      (rc_checksum c' = true -> s = crc32c data' 0)
  | LStop t c' go => go <> GoRead /\ exists data', InBlock sum0 p c' b data' /\ zlen data' = t
  end.
Proof.
  induction fuel as [|fuel IH]; intros c total sum writes aborts r data HI Hz Hs E; cbn [data_loop] in E;
    (destruct (ds <=? total); [injection E as <-; exists data; auto|]);
    (destruct (hd false aborts); [injection E as <-; split; [discriminate|exists data; auto]|]); [discriminate|].
  destruct (conn_read c 0 _) as [[rr c1]| |] eqn:Er; try discriminate. cbn [obind] in E.
  pose proof (conn_read_J _ _ _ _ _ _ _ (ib_J _ _ _ _ _ HI) Er) as F.
  pose proof (InBlock_follows _ _ _ _ _ _ HI F) as HI1.
  destruct rr as [bs|].
  - destruct (hd true writes).
    + refine (IH _ _ _ _ _ _ (data ++ bs) (InBlock_write _ _ _ _ _ bs HI1) _ _ E).
      * rewrite zlen_app. lia.
      * cbn [log_ev rc_checksum]. rewrite (fo_sum _ _ _ _ F). intros K. rewrite K, crc_app', (Hs K). reflexivity.
    + injection E as <-. split; [discriminate|]. exists data. auto.
  - injection E as <-. exists data. split; [exact HI1|]. split; [exact Hz|].
    rewrite (fo_sum _ _ _ _ F). exact Hs.
Qed.

Lemma guard_J sum0 p c b data n : InBlock sum0 p c b data -> zlen data = n -> J sum0 p (guard_partial p c b n).
Proof.
  intros [Hj (a & m & E & Hs & Hw & Hk)] Hz. unfold guard_partial.
  destruct (rp_tags p) eqn:T; cbn [negb andb]; [exact Hj|].
  destruct (rc_checksum c) eqn:K; cbn [negb]; [exact Hj|].
  destruct Hj as [S W Ks Tg]. constructor; cbn [log_ev rc_ev rc_waiting rc_checksum]; auto.
  - apply sound_snoc; [exact S|]. split; [exact T|]. exists a, m. subst data. auto.
  - eapply Forall_impl; [|exact W]. intros x Hx. apply waiting_ext, Hx.
  - rewrite checksums_app, <- Ks. reflexivity.
Qed.

(** The block is stored. *)
Record Stored (sum0 : bool) (p : rparams) (c : rconn) (b : block_details) (data : list Z) : Prop := {
  st_J : J sum0 p c;
  st_rec : exists a m s, rc_ev c = a ++ RHeader b :: m ++ RStored :: s /\ same_block m /\ tagq s /\ written m = data /\
           zlen data = bd_dataSize b /\ checksums sum0 a = rc_checksum c
}.
Lemma Stored_follows sum0 p c c' b data : Stored sum0 p c b data -> Follows sum0 p c c' -> Stored sum0 p c' b data.
Proof.
  intros [Hj (a & m & s & E & Hs & Ht & Hw & Hz & Hk)] [J2 (q & Eq & Tq) K]. constructor; auto.
  exists a, m, (s ++ q). rewrite Eq, E, <- app_assoc. cbn [app]. rewrite <- app_assoc. split; [reflexivity|].
  split; [exact Hs|]. split; [apply tagq_app; auto|]. repeat split; auto. congruence.
Qed.
Lemma read_footer_J sum0 p c b sum data c' go : Stored sum0 p c b data -> rc_checksum c = true ->
  sum = crc32c data 0 -> read_footer p c b sum = Ret (c', go) -> J sum0 p c'.
Proof.
  intros HS K Hsum E. unfold read_footer in E. cbv zeta in E.
  destruct (readAtLeast p (with_old c (rc_off c)) _ _ _ _) as [[n c1]| |] eqn:Er; try discriminate. cbn [obind] in E.
  assert (F : Follows sum0 p c c1).
  { assert (J1 : J sum0 p (with_old c (rc_off c))) by (eapply J_same; [| | |apply HS]; reflexivity).
    destruct (readAtLeast_J _ _ _ _ _ _ _ _ _ J1 Er) as [A1 A2 A3]. constructor; auto. }
  pose proof (Stored_follows _ _ _ _ _ _ HS F) as HS1.
  assert (J1 := st_J _ _ _ _ _ HS1).
  assert (Jp : forall o k, J sum0 p (with_pos c1 o k)) by (intros; eapply J_same; [| | |exact J1]; reflexivity).
  destruct (n <? kMinBufLength); [injection E as <- _; apply Jp|].
  destruct (rd (rc_buf c1) (rc_off c1)) as [cmd|]; [|discriminate].
  destruct (negb (cmd =? FOOTER_CMD)); [injection E as <- _; apply Jp|].
  destruct (decode_at _ _ _ _) as [[[got off1]|]| |]; try discriminate; cbn [obind] in E.
  2:{ injection E as <- _. apply Jp. }
  destruct (Z.eqb_spec (to_i32 sum) got) as [Eg|Eg]; cbn [negb] in E.
  2:{ injection E as <- _. eapply J_same; [| | |exact J1]; reflexivity. }
  injection E as <- _.
  destruct HS1 as [_ (a & m & s & Ev & Hs & Ht & Hw & Hz & Hk)].
  rewrite (fo_sum _ _ _ _ F), K in Hk.
  destruct J1 as [S W Ks Tg]. constructor; cbn [log_ev with_pos rc_ev rc_waiting rc_checksum]; auto.
  - change [RFooter got; RVerified b] with ([RFooter got] ++ [RVerified b]). rewrite app_assoc.
    apply sound_snoc; [apply sound_snoc; [exact S|exact I]|].
    exists a, m, (s ++ [RFooter got]). rewrite Ev, <- app_assoc. cbn [app]. rewrite <- app_assoc.
    split; [reflexivity|]. subst data. split; [exact Hs|]. split; [exact Hz|]. rewrite Hk.
    exists s, [], got. split; [reflexivity|]. split; [apply same_block_tagq, Ht|congruence].
  - eapply Forall_impl; [|exact W]. intros x Hx. apply waiting_ext, Hx.
  - rewrite checksums_app, <- Ks. reflexivity.
Qed.
Lemma finish_J sum0 p c b sum data c' go : Stored sum0 p c b data ->
  (rc_checksum c = true -> sum = crc32c data 0) -> finish_block p c b sum = Ret (c', go) -> J sum0 p c'.
Proof.
  intros HS Hsum E. unfold finish_block in E. destruct (rc_checksum c) eqn:K.
  - eapply read_footer_J; [exact HS|exact K|apply Hsum; reflexivity|exact E].
  - destruct HS as [[S W Ks Tg] (a & m & s & Ev & Hs & Ht & Hw & Hz & Hk)]. rewrite K in Hk. subst data.
    destruct (rp_tags p) eqn:T; injection E as <- _.
    + constructor; cbn [with_wait rc_ev rc_waiting rc_checksum]; auto; [rewrite T; exact S| |congruence].
      apply Forall_app. split; [exact W|]. constructor; [|constructor]. exists a, m, s. auto.
    + constructor; cbn [log_ev rc_ev rc_waiting rc_checksum]; auto.
      * apply sound_snoc; [rewrite T; exact S|]. exists a, m, s. rewrite Ev. split; [reflexivity|].
        split; [exact Hs|]. split; [exact Hz|]. rewrite Hk. congruence.
      * eapply Forall_impl; [|exact W]. intros x Hx. apply waiting_ext, Hx.
      * rewrite checksums_app, <- Ks. reflexivity.
Qed.

Lemma keep_rest_same c rem : rc_ev (keep_rest c rem) = rc_ev c /\ rc_waiting (keep_rest c rem) = rc_waiting c /\
  rc_checksum (keep_rest c rem) = rc_checksum c.
Proof. unfold keep_rest. destruct (0 <? rem); [destruct (_ && _)|]; repeat split; reflexivity. Qed.

Lemma receive_block_J sum0 p fe c b c' go : J sum0 p c ->
  receive_block p fe c b = Ret (c', go) -> J sum0 p c'.
Proof.
  intros H E. unfold receive_block in E. cbv zeta in E.
  assert (I0 : InBlock sum0 p (log_ev c [RHeader b]) b []).
  { constructor; [apply J_plain; auto; exact I|]. exists (rc_ev c), []. cbn [log_ev rc_ev rc_checksum].
    repeat split; auto using same_block_nil. symmetry; apply H. }
  destruct (_ && negb (fe_open fe)).
  { injection E as <- _. eapply guard_J; [exact I0|reflexivity]. }
  destruct (_ <? 0); [discriminate|]. set (rem := rc_num _ + rc_old _ - rc_off _) in *.
  set (tw := if bd_dataSize b <=? rem then bd_dataSize b else rem) in *.
  cbn [log_ev rc_buf rc_off rc_checksum] in E. clearbody tw.
  destruct (Z.ltb_spec tw 0) as [|Ht]; [discriminate|]. destruct (Z.ltb_spec (rc_off c) 0) as [|Hn]; [discriminate|].
  destruct (Z.ltb_spec (zlen (rc_buf c)) (rc_off c + tw)) as [|Ho]; [discriminate|].
  cbn [orb] in E.
  destruct ((0 <? tw) && negb (hd true (fe_writes fe))).
  { injection E as <- _. eapply guard_J; [exact I0|reflexivity]. }
  set (bs := slice (rc_buf c) (rc_off c) tw) in *.
  set (c1 := if 0 <? tw then _ else _) in *.
  assert (I1 : InBlock sum0 p c1 b bs /\ zlen bs = tw /\ rc_checksum c1 = rc_checksum c).
  { unfold c1. destruct (Z.ltb_spec 0 tw).
    - split; [apply (InBlock_write _ _ _ _ [] bs I0)|]. split; [|reflexivity].
      unfold bs. apply zlen_slice; lia.
    - assert (tw = 0) by lia. unfold bs, slice. replace (Z.to_nat tw) with 0%nat by lia. cbn [firstn].
      split; [exact I0|]. split; [symmetry; assumption|reflexivity]. }
  destruct I1 as (I1 & Hz & K1). clearbody c1 bs.
  destruct (data_loop _ _ _ _ _ _ _) as [r| |] eqn:El; try discriminate. cbn [obind] in E.
  eapply data_loop_J with (sum0 := sum0) (p := p) (b := b) (data := bs) in El; [| |exact Hz|].
  2:{ eapply InBlock_same; [| | |exact I1]; reflexivity. }
  2:{ cbn [with_pos rc_checksum]. rewrite K1. intros ->. reflexivity. }
  destruct r as [t s c2|t c2 g].
  - destruct El as (data & I2 & Hd & Hs).
    destruct (negb (fe_sync fe)); [injection E as <- _; eapply guard_J; eauto|].
    destruct (negb (fe_close fe)); [injection E as <- _; eapply guard_J; eauto|].
    destruct (Z.eqb_spec t (bd_dataSize b)) as [Et|]; cbn [negb] in E; [|injection E as <- _; eapply guard_J; eauto].
    destruct (keep_rest_same (log_ev c2 [RStored]) (rem - tw)) as (K2 & K3 & K4).
    eapply finish_J; [| |exact E].
    + constructor.
      * eapply J_same; [exact K2|exact K3|exact K4|]. apply J_plain; [apply I2|exact I].
      * destruct I2 as [_ (a & m & Ev & Hsb & Hw & Hk)]. exists a, m, []. rewrite K2, K4.
        cbn [log_ev rc_ev rc_checksum]. rewrite Ev, <- app_assoc. split; [reflexivity|].
        split; [exact Hsb|]. split; [apply tagq_nil|]. split; [exact Hw|]. split; [congruence|]. exact Hk.
    + rewrite K4. exact Hs.
  - destruct El as (_ & data & I2 & Hd). injection E as <- _. eapply guard_J; eauto.
Qed.

Lemma file_J sum0 p fe c c' go : J sum0 p c -> processFileCmd p fe c = Ret (c', go) -> J sum0 p c'.
Proof.
  intros H E. unfold processFileCmd in E.
  destruct (rd (rc_buf c) (rc_off c)) as [h|]; [|discriminate].
  destruct (rd (rc_buf c) (rc_off c + 1)) as [b0|]; [|discriminate].
  destruct (rd (rc_buf c) (rc_off c + 2)) as [b1|]; [|discriminate].
  cbv zeta in E. set (hlen := int16_le b0 b1) in *. clearbody hlen.
  destruct (hlen <=? 0); [injection E as <- _; exact H|].
  destruct (if rc_num c <? hlen then _ else _) as [[n c1]| |] eqn:Er; try discriminate. cbn [obind] in E.
  assert (J1 : J sum0 p c1).
  { destruct (rc_num c <? hlen); [eapply fo_J, readAtLeast_J; eassumption|injection Er as _ <-; exact H]. }
  assert (Jp : forall o k, J sum0 p (with_pos c1 o k)) by (intros; eapply J_same; [| | |exact J1]; reflexivity).
  destruct (n <? hlen); [injection E as <- _; apply Jp|].
  destruct (decode_at _ _ _ _) as [[[b off3]|]| |]; try discriminate; cbn [obind] in E; [|injection E as <- _; apply Jp].
  destruct (negb (hlen =? _)); [injection E as <- _; apply (Jp off3 n)|].
  destruct (_ && _); [injection E as <- _; apply (Jp off3 n)|].
  eapply receive_block_J; [|exact E]. apply (Jp off3 n).
Qed.
Lemma J_settings sum0 p c s v : J sum0 p c -> J sum0 p (log_ev (with_mode c v (st_enableChecksum s)) [RSettings s]).
Proof.
  intros [S W K T]. constructor; cbn [log_ev with_mode rc_ev rc_waiting rc_checksum]; auto.
  - apply sound_snoc; auto.
  - eapply Forall_impl; [|exact W]. intros b Hb. apply waiting_ext, Hb.
  - rewrite checksums_app. reflexivity.
Qed.
Lemma settings_J sum0 p c c' go : J sum0 p c -> processSettingsCmd p c = Ret (c', go) -> J sum0 p c'.
Proof.
  intros H E. unfold processSettingsCmd in E.
  destruct (decode_at _ _ _ _) as [[[sv off1]|]| |]; try discriminate; cbn [obind] in E; [|injection E as <- _; exact H].
  cbv zeta in E. destruct (settings_version _ _) as [g|v].
  { injection E as <- _. eapply J_same; [| | |exact H]; reflexivity. }
  destruct (decodeSettings _ _ _ _) as [[[s off2]|]| |]; try discriminate; cbn [obind] in E.
  2:{ injection E as <- _. eapply J_same; [| | |exact H]; reflexivity. }
  destruct (list_eq_dec _ _ _).
  2:{ injection E as <- _. eapply J_same; [| | |exact H]; reflexivity. }
  destruct (st_sendFileChunks s); injection E as <- _;
    (eapply J_same; [| | |apply (J_settings _ _ _ s v H)]; reflexivity).
Qed.
Lemma do_cmd_J sum0 p fe c c' go : J sum0 p c -> do_cmd p fe c = Ret (c', go) -> J sum0 p c'.
Proof.
  intros H E. unfold do_cmd in E.
  destruct (readNextCmd p c) as [[c1 g]| |] eqn:Er; try discriminate. cbn [obind fst snd] in E.
  assert (J1 : J sum0 p c1).
  { unfold readNextCmd in Er. cbv zeta in Er.
    destruct (readAtLeast _ _ _ _ _ _) as [[n c2]| |] eqn:Ea; try discriminate. cbn [obind] in Er.
    assert (J2 : J sum0 p c2).
    { eapply fo_J, readAtLeast_J; [|exact Ea]. eapply J_same; [| | |exact H]; reflexivity. }
    assert (Jp : forall o k, J sum0 p (with_pos c2 o k)) by (intros; eapply J_same; [| | |exact J2]; reflexivity).
    destruct (n <? kMinBufLength); [injection Er as <- _; apply Jp|].
    destruct (rd _ _) as [cmd|]; [|discriminate].
    repeat (destruct (cmd =? _); [injection Er as <- _; apply Jp|]). injection Er as <- _. apply Jp. }
  destruct g; try (injection E as <- _; exact J1).
  - eapply settings_J; eassumption.
  - eapply file_J; eassumption.
  - unfold processDoneCmd in E. destruct (negb _); [injection E as <- _; exact J1|].
    destruct (rd _ _) as [st|]; [|discriminate].
    destruct (decode_at _ _ _ _) as [[[nb off1]|]| |]; try discriminate; cbn [obind] in E; injection E as <- _; [|exact J1].
    apply J_plain; [|exact I]. eapply J_same; [| | |exact J1]; reflexivity.
  - unfold processSizeCmd in E.
    destruct (decode_at _ _ _ _) as [[[n off1]|]| |]; try discriminate; cbn [obind] in E; injection E as <- _; [|exact J1].
    apply J_plain; [|exact I]. eapply J_same; [| | |exact J1]; reflexivity.
Qed.
Lemma run_J sum0 p fuel : forall envs c c' go, J sum0 p c -> run_conn fuel p envs c = Ret (c', go) -> J sum0 p c'.
Proof.
  induction fuel as [|fuel IH]; intros envs c c' go H E; cbn [run_conn] in E;
    destruct (do_cmd _ _ _) as [[c1 g]| |] eqn:Ed; try discriminate; cbn [obind fst snd] in E;
    pose proof (do_cmd_J _ _ _ _ _ _ H Ed) as H1;
    (destruct g; try discriminate; try (injection E as <- _; exact H1)).
  eapply IH; eassumption.
Qed.
Lemma sound_nil sum0 tags : sound_record sum0 tags [].
Proof. split; intros pre; intros; destruct pre; discriminate. Qed.
Lemma fresh_J sum0 p buf l v : J sum0 p (fresh_conn buf l v sum0).
Proof. constructor; cbn; auto using sound_nil. Qed.
Lemma record_sound fuel p envs buf l v sum0 c go :
  run_conn fuel p envs (fresh_conn buf l v sum0) = Ret (c, go) -> sound_record sum0 (rp_tags p) (rc_ev c).
Proof. intros E. eapply j_sound, run_J; [apply fresh_J|exact E]. Qed.
