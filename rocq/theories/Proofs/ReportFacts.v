From Verif Require Import Spec.ReportSpec Proofs.SumFacts Proofs.BytesFacts Proofs.SourceQueueFacts.
From Coq Require Import Lia.


Lemma combine_sum f l : (forall a b, f (stats_add a b) = f a + f b) ->
  forall a, f (fold_left stats_add l a) = f a + zsum f l.
Proof.
  intros H. induction l as [|t l IH]; intros a; cbn [fold_left zsum]; [lia|].
  rewrite IH, H. lia.
Qed.

Lemma combine_eff l : st_effData (combine_all l) = zsum st_effData l.
Proof. unfold combine_all. rewrite (combine_sum st_effData) by reflexivity. reflexivity. Qed.
Lemma combine_blocks l : st_blocks (combine_all l) = zsum st_blocks l.
Proof. unfold combine_all. rewrite (combine_sum st_blocks) by reflexivity. reflexivity. Qed.

Lemma combine_remote l : forall a, st_remote (fold_left stats_add l a) = fold_left Z.max (map st_remote l) (st_remote a).
Proof. induction l as [|t l IH]; intros a; [reflexivity|]. cbn [fold_left map]. rewrite IH. reflexivity. Qed.

Lemma fold_max_ge l : forall a, a <= fold_left Z.max l a.
Proof. induction l as [|x l IH]; intros a; cbn [fold_left]; [lia|]. specialize (IH (Z.max a x)). lia. Qed.
Lemma fold_max_in l : forall a x, In x l -> x <= fold_left Z.max l a.
Proof.
  induction l as [|y l IH]; intros a x H; [destruct H|]. cbn [fold_left].
  destruct H as [->|H]; [|apply IH, H]. pose proof (fold_max_ge l (Z.max a x)). lia.
Qed.
Lemma fold_max_is l : forall a, In (fold_left Z.max l a) l \/ fold_left Z.max l a = a.
Proof.
  induction l as [|y l IH]; intros a; cbn [fold_left]; [right; reflexivity|].
  destruct (IH (Z.max a y)) as [H|H]; [left; right; exact H|].
  rewrite H. destruct (Z.max_spec a y) as [[_ ->]|[_ ->]]; [left; left; reflexivity|right; reflexivity].
Qed.
Lemma fold_max_perm l l' : Permutation l l' -> forall a, fold_left Z.max l a = fold_left Z.max l' a.
Proof.
  induction 1 as [|x l l' P IH|x y l|l l1 l2 P1 IH1 P2 IH2]; intros a; cbn [fold_left].
  - reflexivity.
  - apply IH.
  - f_equal; lia.
  - rewrite IH1. apply IH2.
Qed.

Lemma fold_getmore l : forall a,
  fold_left (fun e t => getMoreInterestingError e (getErrorCode t)) l a = fold_left Z.max (map getErrorCode l) a.
Proof. induction l as [|t l IH]; intros a; [reflexivity|]. cbn [fold_left map]. apply IH. Qed.

(** ** Local error codes without disagreement *)
Definition compat (s : stats) (l : list stats) : Prop := agree (s :: l).

Lemma agree_step s t l : agree (s :: t :: l) -> agree (stats_add s t :: l).
Proof.
  intros H a b Ha Hb.
  assert (Q : forall c, In c l -> (st_blocksSend (stats_add s t) = -1 \/ st_blocksSend c = -1 \/ st_blocksSend (stats_add s t) = st_blocksSend c) /\
     (st_senderBytes (stats_add s t) = -1 \/ st_senderBytes c = -1 \/ st_senderBytes (stats_add s t) = st_senderBytes c)).
  { intros c Hc. cbn [stats_add st_blocksSend st_senderBytes].
    destruct (H s c) as [A1 A2]; [left; reflexivity|right; right; exact Hc|].
    destruct (H t c) as [B1 B2]; [right; left; reflexivity|right; right; exact Hc|].
    destruct (st_blocksSend s =? -1); destruct (st_senderBytes s =? -1); split; assumption. }
  destruct Ha as [<-|Ha]; destruct Hb as [<-|Hb].
  - split; right; right; reflexivity.
  - apply Q, Hb.
  - destruct (Q a Ha) as [A B]. split; [destruct A as [X|[X|X]]|destruct B as [X|[X|X]]]; first [solve [right; right; symmetry; exact X]|tauto].
  - apply H; right; right; assumption.
Qed.

Lemma add_local s t : agree [s; t] -> st_local (stats_add s t) = Z.max (st_local s) (st_local t).
Proof.
  intros H. destruct (H s t) as [A B]; [left; reflexivity|right; left; reflexivity|].
  cbn [stats_add st_local]. unfold getMoreInterestingError.
  assert (M : forall x y, x = -1 \/ y = -1 \/ x = y -> (negb (x =? -1) && (negb (y =? -1) && negb (x =? y))) = false).
  { intros x y [-> | [-> | ->]]; cbn; [reflexivity|destruct (negb _); reflexivity|rewrite Z.eqb_refl, !Bool.andb_false_r; reflexivity]. }
  rewrite (M _ _ A), (M _ _ B). reflexivity.
Qed.

Lemma agree_sub l l' : (forall x, In x l' -> In x l) -> agree l -> agree l'.
Proof. intros S H a b Ha Hb. apply H; apply S; assumption. Qed.

Lemma combine_local l : forall s, agree (s :: l) ->
  st_local (fold_left stats_add l s) = fold_left Z.max (map st_local l) (st_local s).
Proof.
  induction l as [|t l IH]; intros s H; [reflexivity|]. cbn [fold_left map].
  rewrite IH by (apply agree_step, H). rewrite add_local; [reflexivity|].
  eapply agree_sub; [|exact H]. intros x [<-|[<-|[]]]; cbn; tauto.
Qed.

Lemma agree_new l : agree l -> agree (stats_new :: l).
Proof.
  intros H a b [<-|Ha] [<-|Hb]; [| | |apply H; assumption]; split; cbn; tauto.
Qed.

Lemma combine_all_local l : agree l -> st_local (combine_all l) = fold_left Z.max (map st_local l) OK.
Proof. intros H. apply combine_local, agree_new, H. Qed.
Lemma combine_all_remote l : st_remote (combine_all l) = fold_left Z.max (map st_remote l) OK.
Proof. apply combine_remote. Qed.

Lemma agree_perm l l' : Permutation l l' -> agree l -> agree l'.
Proof. intros P. apply agree_sub. intros x Hx. eapply Permutation_in; [apply Permutation_sym, P|exact Hx]. Qed.

Lemma order_irrelevant l l' : Permutation l l' -> agree l ->
  st_local (combine_all l) = st_local (combine_all l') /\
  st_remote (combine_all l) = st_remote (combine_all l') /\
  getErrorCode (combine_all l) = getErrorCode (combine_all l').
Proof.
  intros P H. pose proof (agree_perm _ _ P H) as H'.
  unfold getErrorCode. rewrite !combine_all_local, !combine_all_remote by assumption.
  rewrite (fold_max_perm _ _ (Permutation_map st_local P)), (fold_max_perm _ _ (Permutation_map st_remote P)).
  repeat split; reflexivity.
Qed.

Lemma combined_is_worst l : agree l -> codes_ok l ->
  worst (map st_local l) (st_local (combine_all l)) /\ worst (map st_remote l) (st_remote (combine_all l)).
Proof.
  intros H C. rewrite combine_all_local, combine_all_remote by exact H.
  assert (G : forall f, (forall t, In t l -> OK <= f t) -> worst (map f l) (fold_left Z.max (map f l) OK)).
  { intros f Hf. split; [|intros x Hx; apply fold_max_in, Hx].
    destruct (fold_max_is (map f l) OK) as [X|X]; [left; exact X|].
    destruct l as [|t l']; [right; split; reflexivity|left].
    pose proof (fold_max_in (map f (t :: l')) OK (f t) (or_introl eq_refl)) as G1.
    pose proof (Hf t (or_introl eq_refl)). rewrite X in *. left. cbn [map]. lia. }
  split; apply G; intros t Ht; apply C, Ht.
Qed.

Lemma counters_order f l l' : (forall a b, f (stats_add a b) = f a + f b) -> f stats_new = 0 ->
  Permutation l l' -> f (combine_all l) = f (combine_all l').
Proof.
  intros H H0 P. unfold combine_all. rewrite !(combine_sum f _ H), H0, (zsum_perm f _ _ P). reflexivity.
Qed.

(** ** Sender report *)
Lemma combine_nonneg l : forall a, codes_ok (a :: l) ->
  OK <= st_local (fold_left stats_add l a) /\ OK <= st_remote (fold_left stats_add l a).
Proof.
  induction l as [|t l IH]; intros a C; cbn [fold_left]; [apply C; left; reflexivity|].
  apply IH. intros x [<-|Hx]; [|apply C; right; right; exact Hx].
  pose proof (C a (or_introl eq_refl)). pose proof (C t (or_intror (or_introl eq_refl))).
  cbn [stats_add st_local st_remote]. unfold getMoreInterestingError, OK, ERROR in *.
  split; [|lia]. destruct (negb (st_senderBytes a =? -1) && _); [lia|].
  destruct (negb (st_blocksSend a =? -1) && _); lia.
Qed.

Lemma senderReport_code fs th fd tot nd e3 :
  getErrorCode (senderReport fs th fd tot nd) = e3 ->
  e3 = (let summary := combine_all th in
        let e0 := getErrorCode summary in
        let dirsOk := match fd with [] => true | _ => false end in
        let e1 := if dirsOk then e0 else Z.max e0 BYTE_SOURCE_READ_ERROR in
        let e2 := fold_left Z.max (map getErrorCode fs) e1 in
        let possiblyOk := dirsOk && match fs with [] => true | _ => false end in
        if negb (st_effData summary =? tot)
        then if e2 =? OK then ERROR else e2
        else if negb (e2 =? OK) && possiblyOk && existsb (fun t => getErrorCode t =? OK) th then OK else e2).
Proof.
  intros <-. unfold senderReport. rewrite fold_getmore. cbn -[combine_all getErrorCode fold_left].
  unfold getErrorCode at 1. cbn -[combine_all getErrorCode fold_left]. unfold getMoreInterestingError.
  rewrite Z.max_id. reflexivity.
Qed.

Lemma combine_ge l : forall a t, codes_ok (a :: l) -> agree (a :: l) -> In t l ->
  getErrorCode t <= getErrorCode (fold_left stats_add l a).
Proof.
  intros a t C H Ht. unfold getErrorCode, getMoreInterestingError.
  rewrite combine_local by exact H. rewrite combine_remote.
  pose proof (fold_max_in (map st_local l) (st_local a) (st_local t) (in_map _ _ _ Ht)).
  pose proof (fold_max_in (map st_remote l) (st_remote a) (st_remote t) (in_map _ _ _ Ht)). lia.
Qed.

Lemma sender_ok_means fs th fd tot nd :
  codes_ok th -> codes_ok fs -> agree th ->
  getErrorCode (senderReport fs th fd tot nd) = OK ->
  zsum st_effData th = tot /\ fd = [] /\ (forall s, In s fs -> getErrorCode s = OK) /\
  ((forall t, In t th -> getErrorCode t = OK) \/
   (fs = [] /\ exists t, In t th /\ getErrorCode t = OK)).
Proof.
  intros C Cf A E. pose proof (senderReport_code _ _ _ _ _ _ E) as R. cbn zeta in R.
  rewrite combine_eff in R.
  assert (N0 : OK <= getErrorCode (combine_all th)).
  { destruct (combine_nonneg th stats_new) as [N1 N2].
    - intros t [<-|Ht]; [cbn; unfold OK; lia|apply C, Ht].
    - unfold getErrorCode, getMoreInterestingError, combine_all. lia. }
  destruct (Z.eqb_spec (zsum st_effData th) tot) as [Et|Et]; cbn [negb] in R.
  2: { destruct (Z.eqb_spec (fold_left Z.max (map getErrorCode fs)
         (if match fd with [] => true | _ => false end then getErrorCode (combine_all th)
          else Z.max (getErrorCode (combine_all th)) BYTE_SOURCE_READ_ERROR)) OK); unfold OK, ERROR in *; [lia|congruence]. }
  split; [exact Et|].
  set (e1 := if match fd with [] => true | _ => false end then getErrorCode (combine_all th)
          else Z.max (getErrorCode (combine_all th)) BYTE_SOURCE_READ_ERROR) in *.
  set (e2 := fold_left Z.max (map getErrorCode fs) e1) in *.
  destruct (Z.eqb_spec e2 OK) as [E2|E2]; cbn [negb andb] in R.
  - pose proof (fold_max_ge (map getErrorCode fs) e1) as G. fold e2 in G.
    assert (fd = []).
    { destruct fd; [reflexivity|]. unfold e1, BYTE_SOURCE_READ_ERROR, OK in *. lia. }
    subst fd. split; [reflexivity|]. unfold e1 in G. split.
    + intros s Hs. pose proof (fold_max_in (map getErrorCode fs) e1 _ (in_map getErrorCode _ _ Hs)) as G1.
      fold e2 in G1. destruct (Cf s Hs). unfold getErrorCode, getMoreInterestingError, OK in *. lia.
    + left. intros t Ht.
      pose proof (combine_ge th stats_new t) as G2. unfold combine_all in *.
      assert (getErrorCode t <= getErrorCode (fold_left stats_add th stats_new)).
      { apply G2; [|apply agree_new, A|exact Ht]. intros x [<-|Hx]; [cbn; unfold OK; lia|apply C, Hx]. }
      destruct (C t Ht). unfold getErrorCode in *. unfold getMoreInterestingError, OK in *. lia.
  - destruct fd as [|d fd]; cbn [andb] in R.
    2: { congruence. }
    destruct fs as [|s fs]; cbn [andb] in R; [|congruence].
    split; [reflexivity|split; [intros s []|right; split; [reflexivity|]]].
    destruct (existsb (fun t => getErrorCode t =? OK) th) eqn:Ex; [|congruence].
    apply existsb_exists in Ex. destruct Ex as (t & Ht & Hc). exists t. split; [exact Ht|apply Z.eqb_eq, Hc].
Qed.

(** ** Receiver report *)
Lemma combine_announced l : forall a,
  st_blocksSend (fold_left stats_add l a) = (if st_blocksSend a =? -1 then announced st_blocksSend l else st_blocksSend a) /\
  st_senderBytes (fold_left stats_add l a) = (if st_senderBytes a =? -1 then announced st_senderBytes l else st_senderBytes a).
Proof.
  induction l as [|t l IH]; intros a; cbn [fold_left announced].
  - split; [destruct (Z.eqb_spec (st_blocksSend a) (-1)) as [->|]|destruct (Z.eqb_spec (st_senderBytes a) (-1)) as [->|]]; reflexivity.
  - destruct (IH (stats_add a t)) as [-> ->]. cbn [stats_add st_blocksSend st_senderBytes].
    split.
    + destruct (st_blocksSend a =? -1) eqn:E; [reflexivity|]. rewrite E. reflexivity.
    + destruct (st_senderBytes a =? -1) eqn:E; [reflexivity|]. rewrite E. reflexivity.
Qed.

Lemma receiver_ok_counts l : codes_ok l -> getErrorCode (receiverFinal l) = OK ->
  announced st_blocksSend l <> -1 /\ zsum st_blocks l = announced st_blocksSend l /\
  (announced st_senderBytes l <> -1 -> zsum st_effData l = announced st_senderBytes l) /\
  (forall t, In t l -> st_remote t = OK).
Proof.
  intros C E. unfold receiverFinal, receiverReport in E.
  destruct (combine_announced l stats_new) as [Eb Es]. fold (combine_all l) in Eb, Es.
  change (st_blocksSend stats_new =? -1) with true in Eb. change (st_senderBytes stats_new =? -1) with true in Es.
  cbn iota in Eb, Es. rewrite Eb, Es, combine_eff, combine_blocks in E.
  unfold getErrorCode, getMoreInterestingError in E. cbn -[combine_all] in E.
  destruct (combine_nonneg l stats_new) as [N1 N2].
  { intros t [<-|Ht]; [cbn; unfold OK; lia|apply C, Ht]. }
  fold (combine_all l) in N1, N2. unfold OK, ERROR in *.
  destruct (Z.eqb_spec (announced st_blocksSend l) (-1)) as [B1|B1]; cbn [orb] in E; [lia|].
  destruct (Z.eqb_spec (announced st_blocksSend l) (zsum st_blocks l)) as [B2|B2]; cbn [negb] in E; [|lia].
  split; [exact B1|split; [lia|]].
  assert (R : st_remote (combine_all l) = 0).
  { destruct (negb (announced st_senderBytes l =? -1) && _); [lia|]. destruct (negb _ && _); lia. }
  split.
  - intros B3. destruct (Z.eqb_spec (announced st_senderBytes l) (-1)); [contradiction|]. cbn [negb andb] in E.
    destruct (Z.eqb_spec (announced st_senderBytes l) (zsum st_effData l)) as [B4|B4]; [lia|cbn [negb] in E; lia].
  - intros t Ht. rewrite combine_all_remote in R.
    pose proof (fold_max_in (map st_remote l) OK _ (in_map st_remote _ _ Ht)) as G. unfold OK in *.
    destruct (C t Ht) as [C1 C2]. unfold OK in C2. lia.
Qed.

Lemma receiver_ok_no_encryption_error l : codes_ok l -> agree l ->
  (forall t, In t l -> st_local t <= ENCRYPTION_ERROR) ->
  getErrorCode (receiverFinal l) = OK ->
  forall t, In t l -> st_local t <> ENCRYPTION_ERROR.
Proof.
  intros C A M E t Ht Et.
  assert (L : st_local (combine_all l) = ENCRYPTION_ERROR).
  { rewrite combine_all_local by exact A.
    pose proof (fold_max_in (map st_local l) OK _ (in_map st_local _ _ Ht)) as G1.
    destruct (fold_max_is (map st_local l) OK) as [X|X].
    - apply in_map_iff in X. destruct X as (x & Hx & Hi). specialize (M x Hi). rewrite <- Hx in *. lia.
    - unfold OK, ENCRYPTION_ERROR in *. lia. }
  unfold receiverFinal, receiverReport in E. rewrite L in E.
  unfold getErrorCode, getMoreInterestingError in E. cbn -[combine_all Z.max] in E.
  unfold ENCRYPTION_ERROR, ERROR, OK in E.
  destruct (_ || _); [lia|]. destruct (_ && _); lia.
Qed.

(** ** Abort codes *)
Lemma abort_keeps l : forall cur, cur <> OK -> cur <> VERSION_MISMATCH ->
  (forall c, In (Abort c) l -> c = VERSION_MISMATCH) -> run_abort_ops cur l = cur.
Proof.
  induction l as [|o l IH]; intros cur H1 H2 H; [reflexivity|].
  unfold run_abort_ops in *. cbn [fold_left].
  assert (E : do_abort_op cur o = cur).
  { destruct o as [c|]; cbn [do_abort_op].
    - rewrite (H c (or_introl eq_refl)), Z.eqb_refl. apply Z.eqb_neq in H1. rewrite H1. reflexivity.
    - apply Z.eqb_neq in H2. rewrite H2. reflexivity. }
  rewrite E. apply IH; [exact H1|exact H2|]. intros c Hc; apply H; right; exact Hc.
Qed.

Lemma abort_stays_aborted l : forall cur, cur <> OK -> cur <> VERSION_MISMATCH ->
  (forall c, In (Abort c) l -> c <> OK) -> run_abort_ops cur l <> OK /\ run_abort_ops cur l <> VERSION_MISMATCH.
Proof.
  induction l as [|o l IH]; intros cur H1 H2 H; [split; assumption|].
  unfold run_abort_ops in *. cbn [fold_left]. apply IH; [| |intros c Hc; apply H; right; exact Hc].
  - destruct o as [c|]; cbn [do_abort_op].
    + destruct (_ && _); [exact H1|apply H; left; reflexivity].
    + destruct (negb _) eqn:E; [exact H1|]. apply Bool.negb_false_iff, Z.eqb_eq in E. contradiction.
  - destruct o as [c|]; cbn [do_abort_op].
    + destruct (Z.eqb_spec c VERSION_MISMATCH) as [->|Hc]; cbn [andb].
      * apply Z.eqb_neq in H1. rewrite H1. exact H2.
      * exact Hc.
    + destruct (negb _) eqn:E; [exact H2|]. unfold OK, VERSION_MISMATCH; lia.
Qed.

(** ** Buffer size *)
Lemma to_i32_id x : - 2 ^ 31 <= x < 2 ^ 31 -> to_i32 x = x.
Proof. intros H. unfold to_i32. change (2 ^ 31) with 2147483648 in *. change (2 ^ 32) with 4294967296. rewrite Z.mod_small; lia. Qed.

Lemma buffer_size_ok c : c <= 2 ^ 31 - 4096 ->
  let b := checkAndUpdateBufferSize c in
  b mod 4096 = 0 /\ kMaxHeader <= b /\ c <= b /\ b < Z.max c kMaxHeader + 4096 /\ b < 2 ^ 31.
Proof.
  intros H b. unfold checkAndUpdateBufferSize in b. change kDiskBlockSize with 4096 in b.
  change (2 ^ 31) with 2147483648 in *.
  set (b1 := if c <? kMaxHeader then kMaxHeader else c) in b.
  assert (B1 : kMaxHeader <= b1 /\ c <= b1 /\ b1 = Z.max c kMaxHeader /\ b1 <= 2147483648 - 4096).
  { unfold b1. destruct (Z.ltb_spec c kMaxHeader); [|lia]. assert (kMaxHeader <= 100000) by (vm_compute; discriminate). lia. }
  assert (K : 0 <= kMaxHeader) by (vm_compute; discriminate).
  clearbody b1.
  set (b2 := if negb (b1 mod 4096 =? 0) then (b1 + 4096 - 1) / 4096 * 4096 else b1) in b.
  assert (B2 : b2 mod 4096 = 0 /\ b1 <= b2 < b1 + 4096 /\ b2 <= 2147483648 - 4096).
  { unfold b2. destruct (Z.eqb_spec (b1 mod 4096) 0) as [E|E]; cbn [negb]; [lia|].
    pose proof (Z.div_mod (b1 + 4096 - 1) 4096 ltac:(lia)). pose proof (Z.mod_pos_bound (b1 + 4096 - 1) 4096 ltac:(lia)).
    split; [apply Z.mod_mul; lia|]. split; [lia|].
    assert ((b1 + 4096 - 1) / 4096 <= 524287); [|lia].
    apply Z.lt_succ_r, Z.div_lt_upper_bound; lia. }
  assert (Eb : b = b2). { unfold b. apply to_i32_id. change (2 ^ 31) with 2147483648. lia. }
  rewrite Eb. lia.
Qed.

(** Files in the sender's report. *)
Lemma distinct_once ids : each_once ids (distinct ids).
Proof.
  induction ids as [|x ids [IH1 IH2]]; [split; [constructor|tauto]|]. cbn [distinct].
  destruct (existsb (str_eqb x) (distinct ids)) eqn:E.
  - apply existsb_exists in E. destruct E as (y & Hy & Ey). apply str_eqb_eq in Ey. subst y.
    split; [exact IH1|]. intros z. cbn [In]. rewrite IH2. split; [auto|]. intros [<-|H]; [apply IH2, Hy|exact H].
  - split.
    + constructor; [|exact IH1]. intros H. enough (existsb (str_eqb x) (distinct ids) = true) by congruence.
      apply existsb_exists. exists x. split; [exact H|apply str_eqb_refl].
    + intros z. cbn [In]. rewrite IH2. tauto.
Qed.
Lemma files_reported fs th fd tot nd l : each_once (map st_id fs) l ->
  st_files (senderReport fs th fd tot nd) = nd - zlen l.
Proof.
  intros [N M]. unfold senderReport. cbn [setNumFiles st_files]. f_equal.
  destruct (distinct_once (map st_id fs)) as [N' M']. unfold zlen. f_equal.
  apply Nat.le_antisymm; apply NoDup_incl_length; auto; intros x Hx; [apply M, M', Hx|apply M', M, Hx].
Qed.

(** The encryption reported. *)
Lemma combine_enc l : forall a,
  let c := fold_left stats_add l a in
  (exists t, In t l /\ ended_well t /\ st_enc c = st_enc t /\ st_tls c = st_tls t) \/
  ((forall t, In t l -> ~ ended_well t) /\ st_enc c = st_enc a /\ st_tls c = st_tls a).
Proof.
  induction l as [|t l IH]; intros a; cbv zeta; cbn [fold_left].
  - right. split; [intros t []|split; reflexivity].
  - destruct (IH (stats_add a t)) as [(x & Hx & O & E)|(N & E1 & E2)].
    + left. exists x. split; [right; exact Hx|]. split; [exact O|exact E].
    + rewrite E1, E2. cbn [stats_add st_enc st_tls].
      destruct (Z.eqb_spec (st_local t) OK) as [L|L]; [destruct (Z.eqb_spec (st_remote t) OK) as [R|R]|]; cbn [andb].
      * left. exists t. split; [left; reflexivity|]. split; [split; assumption|split; reflexivity].
      * right. split; [|split; reflexivity]. intros x [<-|Hx]; [intros [_ H]; exact (R H)|apply N, Hx].
      * right. split; [|split; reflexivity]. intros x [<-|Hx]; [intros [H _]; exact (L H)|apply N, Hx].
Qed.
Lemma encryption_reported fs l fd tot nd :
  let says c := (exists t, In t l /\ ended_well t /\ st_enc c = st_enc t /\ st_tls c = st_tls t) \/
    ((forall t, In t l -> ~ ended_well t) /\ st_enc c = 0 /\ st_tls c = false) in
  says (senderReport fs l fd tot nd) /\ says (receiverFinal l).
Proof. split; exact (combine_enc l stats_new). Qed.
