(** What the checksum of a block detects. *)
From Verif Require Import Model.RecvConn.
From Coq Require Import Lia ZArith List.
Import ListNotations.
Open Scope Z_scope.

Definition word (x : Z) : Prop := 0 <= x < 2 ^ 32.
Notation poly := 2197175160.

Lemma small_bits n x : 0 <= n -> 0 <= x -> (x < 2 ^ n <-> forall k, n <= k -> Z.testbit x k = false).
Proof.
  intros Hn Hx. split.
  - intros H k Hk. destruct (Z.eq_dec x 0) as [->|N]; [apply Z.bits_0|].
    apply Z.bits_above_log2; [exact Hx|]. apply Z.log2_lt_pow2 in H; lia.
  - intros H. destruct (Z.lt_ge_cases x (2 ^ n)) as [|G]; [assumption|exfalso].
    assert (P : 0 < x) by (pose proof (Z.pow_pos_nonneg 2 n); lia).
    assert (L : n <= Z.log2 x) by (apply Z.log2_le_pow2; assumption).
    specialize (H (Z.log2 x) L). rewrite Z.bit_log2 in H by assumption. discriminate H.
Qed.
Lemma lxor_small n x y : 0 <= n -> 0 <= x < 2 ^ n -> 0 <= y < 2 ^ n -> 0 <= Z.lxor x y < 2 ^ n.
Proof.
  intros Hn Hx Hy. assert (N : 0 <= Z.lxor x y) by (apply Z.lxor_nonneg; lia).
  split; [exact N|]. apply small_bits; [exact Hn|exact N|]. intros k Hk. rewrite Z.lxor_spec.
  rewrite (proj1 (small_bits n x Hn (proj1 Hx)) (proj2 Hx) k Hk),
          (proj1 (small_bits n y Hn (proj1 Hy)) (proj2 Hy) k Hk). reflexivity.
Qed.
Lemma poly_word : word poly. Proof. split; vm_compute; [discriminate|reflexivity]. Qed.
Lemma half_small x : word x -> 0 <= Z.shiftr x 1 < 2 ^ 31.
Proof.
  intros [A B]. rewrite Z.shiftr_div_pow2 by lia. change (2 ^ 1) with 2.
  change (2 ^ 32) with (2 * 2 ^ 31) in B. split; [apply Z.div_pos; lia|apply Z.div_lt_upper_bound; lia].
Qed.
Lemma half_odd_big x : word x -> 2 ^ 31 <= Z.lxor (Z.shiftr x 1) poly.
Proof.
  intros H. pose proof (half_small x H) as Hs.
  assert (N : 0 <= Z.lxor (Z.shiftr x 1) poly) by (apply Z.lxor_nonneg; split; intros; [discriminate|lia]).
  destruct (Z.lt_ge_cases (Z.lxor (Z.shiftr x 1) poly) (2 ^ 31)) as [L|G]; [exfalso|lia].
  pose proof (proj1 (small_bits 31 _ ltac:(lia) N) L 31 ltac:(lia)) as B. rewrite Z.lxor_spec in B.
  rewrite (proj1 (small_bits 31 _ ltac:(lia) (proj1 Hs)) (proj2 Hs) 31 ltac:(lia)) in B.
  vm_compute in B. discriminate B.
Qed.
Lemma bit_word x : word x -> word (crc_bit x).
Proof.
  intros H. pose proof (half_small x H) as Hs. unfold crc_bit, word.
  assert (2 ^ 31 < 2 ^ 32) by (vm_compute; reflexivity).
  destruct (Z.odd x); [|lia]. apply (lxor_small 32); [lia|lia|exact poly_word].
Qed.
Lemma bit_lin x y : crc_bit (Z.lxor x y) = Z.lxor (crc_bit x) (crc_bit y).
Proof.
  unfold crc_bit. assert (O : Z.odd (Z.lxor x y) = xorb (Z.odd x) (Z.odd y)).
  { rewrite <- !Z.bit0_odd. apply Z.lxor_spec. }
  rewrite O, Z.shiftr_lxor. destruct (Z.odd x), (Z.odd y); cbn [xorb].
  -
    apply Z.bits_inj'. intros k _. rewrite !Z.lxor_spec.
    destruct (Z.testbit (Z.shiftr x 1) k), (Z.testbit (Z.shiftr y 1) k), (Z.testbit poly k); reflexivity.
  - apply Z.bits_inj'. intros k _. rewrite !Z.lxor_spec.
    destruct (Z.testbit (Z.shiftr x 1) k), (Z.testbit (Z.shiftr y 1) k), (Z.testbit poly k); reflexivity.
  - apply Z.bits_inj'. intros k _. rewrite !Z.lxor_spec.
    destruct (Z.testbit (Z.shiftr x 1) k), (Z.testbit (Z.shiftr y 1) k), (Z.testbit poly k); reflexivity.
  - reflexivity.
Qed.
Lemma bit_back x y : word x -> crc_bit x = y -> y < 2 ^ 31 -> x = 2 * y.
Proof.
  intros H E L. pose proof (half_odd_big x H) as Hb. unfold crc_bit in E.
  destruct (Z.odd x) eqn:O; [lia|]. rewrite Z.shiftr_div_pow2 in E by lia. change (2 ^ 1) with 2 in E.
  assert (M : x mod 2 = 0) by (rewrite Zmod_odd, O; reflexivity).
  pose proof (Z.div_mod x 2). lia.
Qed.

Definition bits8 (x : Z) : Z := crc_bit (crc_bit (crc_bit (crc_bit (crc_bit (crc_bit (crc_bit (crc_bit x))))))).
Lemma step_bits c b : crc_step c b = bits8 (Z.lxor c b). Proof. reflexivity. Qed.
Lemma bits8_word x : word x -> word (bits8 x).
Proof. intros H. unfold bits8. do 8 apply bit_word. exact H. Qed.
Lemma bits8_lin x y : bits8 (Z.lxor x y) = Z.lxor (bits8 x) (bits8 y).
Proof. unfold bits8. rewrite !bit_lin. reflexivity. Qed.
Lemma bits8_back x : word x -> bits8 x < 2 ^ 24 -> x = 256 * bits8 x.
Proof.
  intros H L. pose proof (bits8_word x H) as [P _]. unfold bits8 in *.
  set (x1 := crc_bit x) in *. assert (W1 : word x1) by (apply bit_word, H).
  set (x2 := crc_bit x1) in *. assert (W2 : word x2) by (apply bit_word, W1).
  set (x3 := crc_bit x2) in *. assert (W3 : word x3) by (apply bit_word, W2).
  set (x4 := crc_bit x3) in *. assert (W4 : word x4) by (apply bit_word, W3).
  set (x5 := crc_bit x4) in *. assert (W5 : word x5) by (apply bit_word, W4).
  set (x6 := crc_bit x5) in *. assert (W6 : word x6) by (apply bit_word, W5).
  set (x7 := crc_bit x6) in *. assert (W7 : word x7) by (apply bit_word, W6).
  set (x8 := crc_bit x7) in *.
  change (2 ^ 24) with 16777216 in L.
  assert (B : 2 ^ 31 = 2147483648) by reflexivity.
  pose proof (bit_back x7 x8 W7 eq_refl ltac:(lia)) as E7.
  pose proof (bit_back x6 x7 W6 eq_refl ltac:(lia)) as E6.
  pose proof (bit_back x5 x6 W5 eq_refl ltac:(lia)) as E5.
  pose proof (bit_back x4 x5 W4 eq_refl ltac:(lia)) as E4.
  pose proof (bit_back x3 x4 W3 eq_refl ltac:(lia)) as E3.
  pose proof (bit_back x2 x3 W2 eq_refl ltac:(lia)) as E2.
  pose proof (bit_back x1 x2 W1 eq_refl ltac:(lia)) as E1.
  pose proof (bit_back x x1 H eq_refl ltac:(lia)) as E0. lia.
Qed.
Lemma bits8_zero x : word x -> bits8 x = 0 -> x = 0.
Proof. intros H E. pose proof (bits8_back x H). rewrite E in *. lia. Qed.

Lemma byte_word b : 0 <= b < 256 -> word b.
Proof. unfold word. change (2 ^ 32) with 4294967296. lia. Qed.
Lemma word_lxor x y : word x -> word y -> word (Z.lxor x y).
Proof. apply lxor_small; lia. Qed.
Lemma crc_word bs : forall s, word s -> Forall (fun b => 0 <= b < 256) bs -> word (crc32c bs s).
Proof.
  induction bs as [|b bs IH]; intros s Hs H; [exact Hs|]. inversion H; subst. cbn [crc32c fold_left].
  apply IH; [|assumption]. rewrite step_bits. apply bits8_word, word_lxor; [exact Hs|apply byte_word; assumption].
Qed.
Lemma crc_app a b s : crc32c (a ++ b) s = crc32c b (crc32c a s).
Proof. apply fold_left_app. Qed.

(** The difference of two runs. *)
Fixpoint diffs (a b : list Z) : list Z :=
  match a, b with x :: a', y :: b' => Z.lxor x y :: diffs a' b' | _, _ => [] end.
Lemma xor4 a b c d : Z.lxor (Z.lxor a b) (Z.lxor c d) = Z.lxor (Z.lxor a c) (Z.lxor b d).
Proof.
  apply Z.bits_inj'. intros k _. rewrite !Z.lxor_spec.
  destruct (Z.testbit a k), (Z.testbit b k), (Z.testbit c k), (Z.testbit d k); reflexivity.
Qed.
Lemma crc_diff a : forall b s t, length a = length b ->
  Z.lxor (crc32c a s) (crc32c b t) = crc32c (diffs a b) (Z.lxor s t).
Proof.
  induction a as [|x a IH]; intros [|y b] s t L; try discriminate L; [reflexivity|].
  cbn [crc32c fold_left diffs]. fold (crc32c a (crc_step s x)). fold (crc32c b (crc_step t y)).
  rewrite IH by (injection L; auto). unfold crc32c. f_equal.
  rewrite !step_bits, <- bits8_lin. f_equal. apply xor4.
Qed.
Lemma diffs_zero a : forall b, length a = length b -> Forall (fun d => d = 0) (diffs a b) -> a = b.
Proof.
  induction a as [|x a IH]; intros [|y b] L H; try discriminate L; [reflexivity|].
  cbn [diffs] in H. inversion H; subst. apply Z.lxor_eq in H2. f_equal; [exact H2|].
  apply IH; [injection L; auto|assumption].
Qed.
Lemma diffs_bytes a : forall b, Forall (fun b => 0 <= b < 256) a -> Forall (fun b => 0 <= b < 256) b ->
  Forall (fun b => 0 <= b < 256) (diffs a b).
Proof.
  induction a as [|x a IH]; intros [|y b] Ha Hb; cbn [diffs]; try constructor.
  - inversion Ha; inversion Hb; subst. apply (lxor_small 8); [lia|assumption|assumption].
  - inversion Ha; inversion Hb; subst. apply IH; assumption.
Qed.
Lemma diffs_length a : forall b, length a = length b -> length (diffs a b) = length a.
Proof. induction a as [|x a IH]; intros [|y b] L; try discriminate L; cbn; [reflexivity|]. f_equal. apply IH. injection L; auto. Qed.

Lemma run_zero es : forall D, word D -> Forall (fun b => 0 <= b < 256) es -> (length es <= 4)%nat ->
  crc32c es D = 0 -> D < 2 ^ (8 * Z.of_nat (length es)) /\ (D = 0 -> Forall (fun d => d = 0) es).
Proof.
  induction es as [|e es IH]; intros D HD He L E.
  - cbn in E. subst D. split; [vm_compute; reflexivity|constructor].
  - inversion He as [|? ? Be Br]; subst. cbn [length] in L.
    cbn [crc32c fold_left] in E. fold (crc32c es (crc_step D e)) in E. rewrite step_bits in E.
    assert (Wx : word (Z.lxor D e)) by (apply word_lxor; [exact HD|apply byte_word, Be]).
    destruct (IH _ (bits8_word _ Wx) Br ltac:(lia) E) as [Ly Hz].
    pose proof (bits8_word _ Wx) as [Py _]. set (y := bits8 (Z.lxor D e)) in *.
    assert (L24 : y < 2 ^ 24).
    { eapply Z.lt_le_trans; [exact Ly|]. apply Z.pow_le_mono_r; lia. }
    pose proof (bits8_back _ Wx L24) as Eb. fold y in Eb.
    assert (ED : D = Z.lxor (256 * y) e).
    { rewrite <- Eb, Z.lxor_assoc, Z.lxor_nilpotent, Z.lxor_0_r. reflexivity. }
    split.
    + set (n := 8 * Z.of_nat (length (e :: es))). assert (Hn : n = 8 * Z.of_nat (length es) + 8) by (unfold n; cbn [length]; lia).
      rewrite ED. apply (lxor_small n); [lia| |].
      * split; [lia|]. rewrite Hn, Z.pow_add_r by lia. change (2 ^ 8) with 256. lia.
      * split; [lia|]. eapply Z.lt_le_trans; [exact (proj2 Be)|]. change 256 with (2 ^ 8). apply Z.pow_le_mono_r; lia.
    + intros D0. rewrite D0 in ED. symmetry in ED. apply Z.lxor_eq in ED.
      assert (y = 0) by lia. constructor; [lia|]. apply Hz. assumption.
Qed.
Lemma keep_nonzero es : forall D, word D -> D <> 0 -> Forall (fun d => d = 0) es -> crc32c es D <> 0.
Proof.
  induction es as [|e es IH]; intros D HD N He; [exact N|]. inversion He as [|? ? E0 Er]; subst.
  cbn [crc32c fold_left]. fold (crc32c es (crc_step D 0)). rewrite step_bits, Z.lxor_0_r.
  apply IH; [apply bits8_word, HD| |exact Er]. intros Z0. apply N, bits8_zero; assumption.
Qed.
Lemma diffs_same a : Forall (fun d => d = 0) (diffs a a).
Proof. induction a as [|x a IH]; cbn; constructor; [apply Z.lxor_nilpotent|exact IH]. Qed.

(** Damage within four neighbouring bytes changes the checksum. *)
Lemma burst_detected start pre a b post : 0 <= start < 2 ^ 32 ->
  Forall (fun x => 0 <= x < 256) (pre ++ a ++ post) -> Forall (fun x => 0 <= x < 256) b ->
  length a = length b -> (length a <= 4)%nat -> a <> b ->
  crc32c (pre ++ a ++ post) start <> crc32c (pre ++ b ++ post) start.
Proof.
  intros Hs Hb Bb L L4 N E. apply Forall_app in Hb. destruct Hb as [Bp Hb]. apply Forall_app in Hb. destruct Hb as [Ba Bq].
  rewrite !crc_app in E. set (s := crc32c pre start) in *.
  assert (Ws : word s) by (apply crc_word; assumption).
  assert (D : Z.lxor (crc32c post (crc32c a s)) (crc32c post (crc32c b s)) = 0).
  { rewrite E. apply Z.lxor_nilpotent. }
  rewrite crc_diff in D by reflexivity.
  assert (Dw : Z.lxor (crc32c a s) (crc32c b s) = crc32c (diffs a b) 0).
  { rewrite crc_diff by exact L. rewrite Z.lxor_nilpotent. reflexivity. }
  rewrite Dw in D.
  assert (W0 : word 0) by (split; [lia|vm_compute; reflexivity]).
  pose proof (diffs_bytes a b Ba Bb) as Db.
  destruct (Z.eq_dec (crc32c (diffs a b) 0) 0) as [Z0|NZ].
  - apply N, diffs_zero; [exact L|].
    apply (run_zero (diffs a b) 0 W0 Db); [rewrite diffs_length by exact L; exact L4|exact Z0|reflexivity].
  - exact (keep_nonzero _ _ (crc_word _ 0 W0 Db) NZ (diffs_same post) D).
Qed.

(** The footer carries the checksum as a signed number, which loses nothing. *)
Lemma to_i32_inj x y : word x -> word y -> to_i32 x = to_i32 y -> x = y.
Proof.
  unfold word, to_i32. change (2 ^ 32) with 4294967296. change (2 ^ 31) with 2147483648. intros Hx Hy E.
  pose proof (Z.div_mod (x + 2147483648) 4294967296 ltac:(lia)). pose proof (Z.div_mod (y + 2147483648) 4294967296 ltac:(lia)).
  pose proof (Z.mod_pos_bound (x + 2147483648) 4294967296 ltac:(lia)). pose proof (Z.mod_pos_bound (y + 2147483648) 4294967296 ltac:(lia)).
  assert (0 <= (x + 2147483648) / 4294967296 <= 1 /\ 0 <= (y + 2147483648) / 4294967296 <= 1) by lia. lia.
Qed.
Lemma damage_detected pre a b post :
  Forall (fun x => 0 <= x < 256) (pre ++ a ++ post) -> Forall (fun x => 0 <= x < 256) b ->
  length a = length b -> (length a <= 4)%nat -> a <> b ->
  to_i32 (crc32c (pre ++ a ++ post) 0) <> to_i32 (crc32c (pre ++ b ++ post) 0).
Proof.
  intros H Hb L L4 N E. assert (W0 : word 0) by (split; [lia|vm_compute; reflexivity]).
  apply (burst_detected 0 pre a b post); try assumption.
  apply to_i32_inj; [apply crc_word; assumption| |exact E].
  apply crc_word; [exact W0|]. apply Forall_app in H. destruct H as [P H]. apply Forall_app in H. destruct H as [_ Q].
  apply Forall_app; split; [exact P|]. apply Forall_app; split; assumption.
Qed.
(** Two blocks of which only the first bytes, zeros, differ in number. *)
Lemma leading_zeros n bs : crc32c (repeat 0 n ++ bs) 0 = crc32c bs 0.
Proof. rewrite crc_app. f_equal. induction n as [|n IH]; [reflexivity|]. exact IH. Qed.
Lemma crc_vectors :
  map (fun bs => Z.lxor (crc32c bs 4294967295) 4294967295)
    [ [49; 50; 51; 52; 53; 54; 55; 56; 57]; repeat 0 32; repeat 255 32; map Z.of_nat (seq 0 32);
      map (fun k => 31 - Z.of_nat k) (seq 0 32) ]
  = [3808858755; 2324772522; 1655221059; 1188919630; 289397596].
Proof. vm_compute. reflexivity. Qed.
