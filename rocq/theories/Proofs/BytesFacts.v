(** Lemmas about byte arrays and machine integers. *)
From Coq Require Export ZifyBool ZifyNat ZifyN.
From Verif Require Export Spec.CodecSpec.
Ltac Zify.zify_post_hook ::= Z.div_mod_to_equations.

Lemma zlen_nonneg {A} (l : list A) : 0 <= zlen l.
Proof. unfold zlen; lia. Qed.
Lemma zlen_nil {A} : zlen (@nil A) = 0.
Proof. reflexivity. Qed.
Lemma zlen_cons {A} (a : A) l : zlen (a :: l) = 1 + zlen l.
Proof. unfold zlen; cbn [length]; lia. Qed.
Lemma zlen_app {A} (l m : list A) : zlen (l ++ m) = zlen l + zlen m.
Proof. unfold zlen; rewrite app_length; lia. Qed.
Lemma zlen_firstn {A} (l : list A) n :
  0 <= n -> zlen (firstn (Z.to_nat n) l) = Z.min n (zlen l).
Proof. intros H; unfold zlen; rewrite firstn_length; lia. Qed.
Lemma zlen_skipn {A} (l : list A) n :
  0 <= n <= zlen l -> zlen (skipn (Z.to_nat n) l) = zlen l - n.
Proof. unfold zlen; intros H; rewrite skipn_length; lia. Qed.

#[export] Hint Rewrite @zlen_nil @zlen_cons @zlen_app : zlen.

Lemma rd_neg {A} (l : list A) i : i < 0 -> rd l i = None.
Proof. unfold rd; intros H; destruct (Z.ltb_spec i 0); [reflexivity|lia]. Qed.
Lemma rd_ge {A} (l : list A) i : zlen l <= i -> rd l i = None.
Proof.
  unfold rd, zlen; intros H; destruct (Z.ltb_spec i 0); [reflexivity|].
  apply nth_error_None; lia.
Qed.
Lemma rd_in {A} (l : list A) i : 0 <= i < zlen l -> exists a, rd l i = Some a.
Proof.
  unfold rd, zlen; intros H; destruct (Z.ltb_spec i 0); [lia|].
  destruct (nth_error l (Z.to_nat i)) as [a|] eqn:E; [eauto|].
  apply nth_error_None in E; lia.
Qed.
Lemma rd_Some_range {A} (l : list A) i a : rd l i = Some a -> 0 <= i < zlen l.
Proof.
  unfold rd, zlen; destruct (Z.ltb_spec i 0); [discriminate|]; intros E.
  assert (Hn : nth_error l (Z.to_nat i) <> None) by (rewrite E; discriminate).
  apply nth_error_Some in Hn; lia.
Qed.
Lemma rd_In {A} (l : list A) i a : rd l i = Some a -> In a l.
Proof.
  unfold rd; destruct (Z.ltb_spec i 0); [discriminate|]; apply nth_error_In.
Qed.
Lemma rd_app_mid {A} (pre : list A) a rest : rd (pre ++ a :: rest) (zlen pre) = Some a.
Proof.
  unfold rd, zlen; destruct (Z.ltb_spec (Z.of_nat (length pre)) 0); [lia|].
  rewrite Nat2Z.id, nth_error_app2, Nat.sub_diag by lia; reflexivity.
Qed.
Lemma rd_app_l {A} (l m : list A) i : i < zlen l -> rd (l ++ m) i = rd l i.
Proof.
  unfold rd, zlen; intros H; destruct (Z.ltb_spec i 0); [reflexivity|].
  rewrite nth_error_app1 by lia; reflexivity.
Qed.
Lemma rd_app_r {A} (l m : list A) i : zlen l <= i -> rd (l ++ m) i = rd m (i - zlen l).
Proof.
  unfold rd, zlen; intros H; destruct (Z.ltb_spec i 0); [lia|].
  destruct (Z.ltb_spec (i - Z.of_nat (length l)) 0); [lia|].
  rewrite nth_error_app2 by lia; f_equal; lia.
Qed.
Lemma rd_firstn {A} (l : list A) n i : i < n -> rd (firstn (Z.to_nat n) l) i = rd l i.
Proof.
  intros H. destruct (Z_lt_dec i 0) as [Hi|Hi].
  - rewrite !rd_neg by lia; reflexivity.
  - rewrite <- (firstn_skipn (Z.to_nat n) l) at 2.
    destruct (Z_lt_dec i (zlen (firstn (Z.to_nat n) l))) as [Hl|Hl].
    + rewrite rd_app_l by lia; reflexivity.
    + rewrite (rd_ge (firstn _ _)) by lia.
      symmetry; apply rd_ge.
      rewrite zlen_firstn in Hl by lia.
      rewrite firstn_skipn; lia.
Qed.
Lemma rd_skipn {A} (l : list A) n i :
  0 <= n -> 0 <= i -> rd (skipn (Z.to_nat n) l) i = rd l (n + i).
Proof.
  intros Hn Hi.
  destruct (Z_le_dec n (zlen l)) as [Hl|Hl].
  - rewrite <- (firstn_skipn (Z.to_nat n) l) at 2.
    rewrite rd_app_r; rewrite zlen_firstn by lia; [|lia].
    f_equal; lia.
  - rewrite (rd_ge l) by lia.
    unfold zlen in Hl; rewrite skipn_all2 by lia.
    apply rd_ge; cbn; lia.
Qed.

Lemma rd_ext {A} (l m : list A) : zlen l = zlen m -> (forall i, rd l i = rd m i) -> l = m.
Proof.
  revert m; induction l as [|a l IH]; intros [|b m] Hl H; autorewrite with zlen in *.
  - reflexivity.
  - pose proof (zlen_nonneg m); lia.
  - pose proof (zlen_nonneg l); lia.
  - pose proof (H 0) as H0; cbn in H0; injection H0 as ->.
    f_equal; apply IH; [lia|].
    intros i; destruct (Z_lt_dec i 0) as [Hi|Hi].
    + rewrite !rd_neg by lia; reflexivity.
    + specialize (H (1 + i)).
      change (b :: l) with ([b] ++ l) in H; change (b :: m) with ([b] ++ m) in H.
      rewrite !rd_app_r in H by (change (zlen [b]) with 1; lia).
      change (zlen [b]) with 1 in H.
      replace (1 + i - 1) with i in H by lia; exact H.
Qed.

Lemma upd_in {A} (l : list A) i a :
  0 <= i < zlen l -> upd l i a = Some (splice l i [a]).
Proof.
  unfold upd, splice; intros H.
  destruct (Z.leb_spec 0 i); [|lia].
  destruct (Z.ltb_spec i (zlen l)); [|lia].
  cbn [andb app length]; rewrite Nat.add_1_r; reflexivity.
Qed.

Lemma zlen_splice {A} (l : list A) i bs :
  0 <= i -> i + zlen bs <= zlen l -> zlen (splice l i bs) = zlen l.
Proof.
  unfold splice, zlen; intros H1 H2.
  rewrite !app_length, firstn_length, skipn_length; lia.
Qed.

Lemma rd_splice {A} (l : list A) i bs j :
  0 <= i -> i + zlen bs <= zlen l ->
  rd (splice l i bs) j =
    if (i <=? j) && (j <? i + zlen bs) then rd bs (j - i) else rd l j.
Proof.
  intros H1 H2.
  assert (Hf : zlen (firstn (Z.to_nat i) l) = i)
    by (rewrite zlen_firstn; pose proof (zlen_nonneg bs); lia).
  unfold splice.
  destruct (Z.leb_spec i j) as [Hij|Hij]; cbn [andb].
  - rewrite rd_app_r, Hf by lia.
    destruct (Z.ltb_spec j (i + zlen bs)) as [Hj|Hj].
    + rewrite rd_app_l by lia; reflexivity.
    + rewrite rd_app_r by lia.
      replace (Z.to_nat i + length bs)%nat with (Z.to_nat (i + zlen bs))
        by (unfold zlen; lia).
      rewrite rd_skipn by (pose proof (zlen_nonneg bs); lia).
      f_equal; lia.
  - rewrite rd_app_l by lia; apply rd_firstn; lia.
Qed.

Lemma splice_nil {A} (l : list A) i : splice l i [] = l.
Proof.
  unfold splice; cbn [app length]; rewrite Nat.add_0_r; apply firstn_skipn.
Qed.

Lemma splice_app {A} (l : list A) i b1 b2 :
  0 <= i -> i + zlen (b1 ++ b2) <= zlen l ->
  splice (splice l i b1) (i + zlen b1) b2 = splice l i (b1 ++ b2).
Proof.
  intros H1 H2; rewrite zlen_app in H2.
  pose proof (zlen_nonneg b1); pose proof (zlen_nonneg b2).
  apply rd_ext.
  - rewrite !zlen_splice; rewrite ?zlen_splice; rewrite ?zlen_app; lia.
  - intros j.
    rewrite !rd_splice; rewrite ?zlen_splice; rewrite ?zlen_app; try lia.
    destruct (Z.leb_spec (i + zlen b1) j), (Z.leb_spec i j); cbn [andb]; try lia.
    + destruct (Z.ltb_spec j (i + zlen b1 + zlen b2)),
               (Z.ltb_spec j (i + (zlen b1 + zlen b2))),
               (Z.ltb_spec j (i + zlen b1)); cbn [andb]; try lia.
      * rewrite rd_app_r by lia; f_equal; lia.
      * reflexivity.
    + destruct (Z.ltb_spec j (i + zlen b1)),
               (Z.ltb_spec j (i + (zlen b1 + zlen b2))); try lia.
      rewrite rd_app_l by lia; reflexivity.
    + reflexivity.
Qed.

Lemma slice_splice {A} (l : list A) i bs :
  0 <= i -> i + zlen bs <= zlen l -> slice (splice l i bs) i (zlen bs) = bs.
Proof.
  intros H1 H2; unfold slice, splice.
  assert (Hf : length (firstn (Z.to_nat i) l) = Z.to_nat i).
  { rewrite firstn_length; unfold zlen in *; lia. }
  rewrite skipn_app, Hf, Nat.sub_diag.
  rewrite skipn_all2 by lia; cbn [app skipn].
  unfold zlen; rewrite Nat2Z.id, firstn_app, Nat.sub_diag, firstn_all.
  cbn [firstn]; apply app_nil_r.
Qed.

Lemma slice_all {A} (l : list A) : slice l 0 (zlen l) = l.
Proof. unfold slice, zlen; cbn [Z.to_nat skipn]; rewrite Nat2Z.id; apply firstn_all. Qed.

Lemma zlen_slice {A} (l : list A) a n :
  0 <= a -> 0 <= n -> a + n <= zlen l -> zlen (slice l a n) = n.
Proof.
  unfold slice, zlen; intros; rewrite firstn_length, skipn_length; lia.
Qed.

Lemma rd_slice {A} (l : list A) a n j :
  0 <= a -> 0 <= j < n -> rd (slice l a n) j = rd l (a + j).
Proof.
  intros Ha Hj; unfold slice.
  rewrite rd_firstn by lia; apply rd_skipn; lia.
Qed.

Lemma skipn_skipn_add {A} n m (l : list A) : skipn n (skipn m l) = skipn (m + n) l.
Proof.
  revert l; induction m as [|m IH]; intros [|a l]; cbn [skipn Nat.add]; auto using skipn_nil.
Qed.

Lemma slice_app_split {A} (l : list A) a n m :
  0 <= a -> 0 <= n -> 0 <= m -> slice l a (n + m) = slice l a n ++ slice l (a + n) m.
Proof.
  intros Ha Hn Hm; unfold slice.
  rewrite (Z2Nat.inj_add n m), (Z2Nat.inj_add a n) by lia.
  rewrite <- (firstn_skipn (Z.to_nat n) (firstn (Z.to_nat n + Z.to_nat m) _)).
  f_equal.
  - rewrite firstn_firstn; f_equal; lia.
  - rewrite skipn_firstn_comm, skipn_skipn_add.
    f_equal; lia.
Qed.

Lemma bytes_ok_app l m : bytes_ok (l ++ m) <-> bytes_ok l /\ bytes_ok m.
Proof. apply Forall_app. Qed.
Lemma bytes_ok_firstn l n : bytes_ok l -> bytes_ok (firstn n l).
Proof.
  unfold bytes_ok; rewrite !Forall_forall; intros H x Hx; apply H.
  rewrite <- (firstn_skipn n l); apply in_or_app; auto.
Qed.
Lemma bytes_ok_skipn l n : bytes_ok l -> bytes_ok (skipn n l).
Proof.
  unfold bytes_ok; rewrite !Forall_forall; intros H x Hx; apply H.
  rewrite <- (firstn_skipn n l); apply in_or_app; auto.
Qed.
Lemma bytes_ok_slice l a n : bytes_ok l -> bytes_ok (slice l a n).
Proof. intros H; apply bytes_ok_firstn, bytes_ok_skipn, H. Qed.

Lemma store_splice buf i bs :
  0 <= i -> i + zlen bs <= zlen buf ->
  forall st : list Z -> Z -> list Z -> option (list Z),
  (forall b j, st b j [] = Some b) ->
  (forall b j x r, st b j (x :: r) = match upd b j x with
                                     | None => None
                                     | Some b' => st b' (j + 1) r end) ->
  st buf i bs = Some (splice buf i bs).
Proof.
  intros Hi Hl st Hnil Hcons.
  revert buf i Hi Hl; induction bs as [|b bs IH]; intros buf i Hi Hl.
  - rewrite Hnil, splice_nil; reflexivity.
  - rewrite zlen_cons in Hl; pose proof (zlen_nonneg bs).
    rewrite Hcons, upd_in by lia.
    rewrite IH; [|lia|].
    + f_equal; change (b :: bs) with ([b] ++ bs).
      rewrite <- splice_app; [reflexivity|lia|].
      rewrite zlen_app; change (zlen [b]) with 1; lia.
    + rewrite zlen_splice; change (zlen [b]) with 1; lia.
Qed.

(** Disjoint [lor] is addition. *)
Lemma lor_add a b n : 0 <= n -> 0 <= a < 2 ^ n -> Z.lor a (b * 2 ^ n) = a + b * 2 ^ n.
Proof.
  intros Hn Ha.
  assert (Hl : Z.land a (b * 2 ^ n) = 0).
  { apply Z.bits_inj'; intros k Hk.
    rewrite Z.land_spec, Z.bits_0, <- Z.shiftl_mul_pow2, Z.shiftl_spec by lia.
    destruct (Z_lt_dec k n) as [Hkn|Hkn].
    - rewrite (Z.testbit_neg_r b) by lia; apply andb_false_r.
    - destruct (Z.eq_dec a 0) as [->|Ha0]; [rewrite Z.bits_0; reflexivity|].
      rewrite (Z.bits_above_log2 a k); [reflexivity|lia|].
      assert (Z.log2 a < n) by (apply Z.log2_lt_pow2; lia); lia. }
  rewrite <- Z.lxor_lor by exact Hl; symmetry; apply Z.add_nocarry_lxor, Hl.
Qed.

Lemma lor_bound a b n : 0 <= n -> 0 <= a < 2 ^ n -> 0 <= b < 2 ^ n -> 0 <= Z.lor a b < 2 ^ n.
Proof.
  intros Hn Ha Hb.
  assert (H0 : 0 <= Z.lor a b) by (apply Z.lor_nonneg; lia).
  split; [exact H0|].
  destruct (Z.eq_dec (Z.lor a b) 0) as [->|Hne]; [lia|].
  apply Z.log2_lt_pow2; [lia|].
  rewrite Z.log2_lor by lia.
  destruct (Z.eq_dec a 0) as [->|Ha0], (Z.eq_dec b 0) as [->|Hb0].
  - exfalso; apply Hne; reflexivity.
  - change (Z.log2 0) with 0.
    assert (Z.log2 b < n) by (apply Z.log2_lt_pow2; lia).
    pose proof (Z.log2_nonneg b); lia.
  - change (Z.log2 0) with 0.
    assert (Z.log2 a < n) by (apply Z.log2_lt_pow2; lia).
    pose proof (Z.log2_nonneg a); lia.
  - assert (Z.log2 a < n) by (apply Z.log2_lt_pow2; lia).
    assert (Z.log2 b < n) by (apply Z.log2_lt_pow2; lia); lia.
Qed.

Lemma u64_range x : in_u64 (u64 x).
Proof. unfold in_u64, u64; apply Z.mod_pos_bound; lia. Qed.
Lemma u64_id x : in_u64 x -> u64 x = x.
Proof. unfold in_u64, u64; intros H; apply Z.mod_small; exact H. Qed.
Lemma s64_id x : in_i64 x -> s64 x = x.
Proof.
  unfold in_i64, s64; intros H.
  destruct (Z_lt_dec x 0) as [Hx|Hx].
  - replace (x mod 2 ^ 64) with (x + 2 ^ 64)
      by (rewrite <- (Z_mod_plus_full x 1 (2 ^ 64)); symmetry; apply Z.mod_small; lia).
    cbv zeta; destruct (Z.ltb_spec (x + 2 ^ 64) (2 ^ 63)); lia.
  - rewrite Z.mod_small by lia.
    cbv zeta; destruct (Z.ltb_spec x (2 ^ 63)); lia.
Qed.


Lemma same_outside_refl buf a b : same_outside buf buf a b.
Proof. split; auto. Qed.
Lemma same_outside_trans b1 b2 b3 a b a' :
  a <= a' -> same_outside b1 b2 a b -> same_outside b2 b3 a' b -> same_outside b1 b3 a b.
Proof.
  intros Ha [L1 H1] [L2 H2]; split; [lia|].
  intros i Hi; rewrite H2 by lia; apply H1; lia.
Qed.
Lemma same_outside_splice buf a bs b :
  0 <= a -> a + zlen bs <= b -> a + zlen bs <= zlen buf -> same_outside buf (splice buf a bs) a b.
Proof.
  intros H0 H1 H2; split; [apply zlen_splice; lia|].
  intros i Hi; rewrite rd_splice by lia.
  destruct (Z.leb_spec a i); cbn [andb]; [|reflexivity].
  destruct (Z.ltb_spec i (a + zlen bs)); [lia|reflexivity].
Qed.
