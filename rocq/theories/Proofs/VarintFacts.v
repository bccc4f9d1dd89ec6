(** Facts about integer and string serialisation. *)
From Verif Require Export Proofs.BytesFacts Model.Varint.

Local Opaque Z.pow.

(** ---- encoder shape ---- *)
Lemma land127 v : 0 <= v -> Z.land v 127 = v mod 128.
Proof. intros; change 127 with (Z.ones 7); rewrite Z.land_ones by lia; reflexivity. Qed.
Lemma lor128 x : 0 <= x < 128 -> Z.lor 128 x = 128 + x.
Proof.
  intros H; rewrite Z.lor_comm.
  replace 128 with (1 * 2 ^ 7) by reflexivity.
  rewrite lor_add; [lia|lia|]. change (2 ^ 7) with 128; lia.
Qed.
Lemma shr7 v : Z.shiftr v 7 = v / 128.
Proof. rewrite Z.shiftr_div_pow2 by lia; reflexivity. Qed.
Lemma shl_pow a s : 0 <= s -> Z.shiftl a s = a * 2 ^ s.
Proof. intros; apply Z.shiftl_mul_pow2; assumption. Qed.

Lemma encU64_loop_step n v :
  0 <= v ->
  encU64_loop (S n) v =
    if 128 <=? v then (128 + v mod 128) :: encU64_loop n (v / 128) else [v mod 256].
Proof.
  intros H; cbn [encU64_loop]; rewrite land127, shr7 by lia.
  rewrite lor128 by lia; reflexivity.
Qed.

Lemma encU64_loop_len n v : 0 <= v -> 1 <= zlen (encU64_loop n v) <= 1 + Z.of_nat n.
Proof.
  revert v; induction n as [|n IH]; intros v Hv.
  - cbn [encU64_loop]; rewrite zlen_cons, zlen_nil; lia.
  - rewrite encU64_loop_step by lia; destruct (Z.leb_spec 128 v).
    + rewrite zlen_cons; specialize (IH (v / 128)); lia.
    + rewrite zlen_cons, zlen_nil; lia.
Qed.

Lemma encU64_loop_bytes n v : 0 <= v -> bytes_ok (encU64_loop n v).
Proof.
  revert v; induction n as [|n IH]; intros v Hv.
  - cbn [encU64_loop]; repeat constructor; lia.
  - rewrite encU64_loop_step by lia; destruct (Z.leb_spec 128 v).
    + constructor; [split; lia|apply IH; lia].
    + repeat constructor; lia.
Qed.

Lemma encodeVarU64_str_len v : 0 <= v -> 1 <= zlen (encodeVarU64_str v) <= 9.
Proof. intros H; pose proof (encU64_loop_len 8 v H); unfold encodeVarU64_str; lia. Qed.
Lemma encodeVarU64_str_bytes v : 0 <= v -> bytes_ok (encodeVarU64_str v).
Proof. apply encU64_loop_bytes. Qed.

(** Small values take few bytes. *)
Lemma encU64_loop_small n k v :
  (k <= n)%nat -> 0 <= v < 2 ^ (7 * (Z.of_nat k + 1)) -> zlen (encU64_loop n v) <= 1 + Z.of_nat k.
Proof.
  revert n v; induction k as [|k IH]; intros n v Hk Hv.
  - change (2 ^ (7 * (Z.of_nat 0 + 1))) with 128 in Hv.
    destruct n as [|n]; [cbn [encU64_loop]; rewrite zlen_cons, zlen_nil; lia|].
    rewrite encU64_loop_step by lia; destruct (Z.leb_spec 128 v); [lia|].
    rewrite zlen_cons, zlen_nil; lia.
  - destruct n as [|n]; [lia|].
    rewrite encU64_loop_step by lia; destruct (Z.leb_spec 128 v).
    + rewrite zlen_cons.
      assert (zlen (encU64_loop n (v / 128)) <= 1 + Z.of_nat k); [|lia].
      apply IH; [lia|].
      replace (7 * (Z.of_nat (S k) + 1)) with (7 + 7 * (Z.of_nat k + 1)) in Hv by lia.
      rewrite Z.pow_add_r in Hv by lia; change (2 ^ 7) with 128 in Hv.
      split; [lia|]; apply Z.div_lt_upper_bound; lia.
    + rewrite zlen_cons, zlen_nil; lia.
Qed.

(** ---- zig-zag ---- *)
Lemma lxor_ones a n : 0 <= n -> 0 <= a < 2 ^ n -> Z.lxor a (2 ^ n - 1) = 2 ^ n - 1 - a.
Proof.
  intros Hn Ha.
  assert (Ho : 2 ^ n - 1 = Z.ones n) by (rewrite Z.ones_equiv; lia).
  assert (Hl : Z.land a (Z.ones n) = a) by (rewrite Z.land_ones by lia; apply Z.mod_small; lia).
  rewrite Ho.
  assert (E : Z.ones n - a = Z.lxor (Z.ones n) a).
  { assert (Hd : Z.ldiff a (Z.ones n) = 0).
    { rewrite <- Hl at 1. apply Z.bits_inj'; intros k Hk.
      rewrite Z.ldiff_spec, Z.land_spec, Z.bits_0.
      destruct (Z.testbit (Z.ones n) k); cbn [negb]; rewrite ?andb_false_r, ?andb_true_r; auto. }
    rewrite Z.sub_nocarry_ldiff by exact Hd.
    apply Z.bits_inj'; intros k Hk.
    rewrite Z.ldiff_spec, Z.lxor_spec.
    assert (Hb : Z.testbit (Z.ldiff a (Z.ones n)) k = false) by (rewrite Hd; apply Z.bits_0).
    rewrite Z.ldiff_spec in Hb.
    destruct (Z.testbit a k), (Z.testbit (Z.ones n) k); cbn in *; congruence. }
  rewrite Z.lxor_comm, <- E; reflexivity.
Qed.

Lemma encodeZigZag_spec v :
  in_i64 v -> encodeZigZag v = if 0 <=? v then 2 * v else - 2 * v - 1.
Proof.
  unfold in_i64, encodeZigZag; intros H.
  rewrite shl_pow by lia; change (2 ^ 1) with 2.
  rewrite Z.shiftr_div_pow2 by lia.
  unfold u64. change (2 ^ 64) with 18446744073709551616 in *.
  change (2 ^ 63) with 9223372036854775808 in *.
  destruct (Z.leb_spec 0 v).
  - replace (v / 9223372036854775808) with 0 by (symmetry; apply Z.div_small; lia).
    rewrite Z.mod_0_l, Z.lxor_0_r by lia.
    rewrite (Z.mod_small v), Z.mod_small by lia; lia.
  - replace (v / 9223372036854775808) with (-1)
      by (apply Z.div_unique with (v + 9223372036854775808); lia).
    replace ((-1) mod 18446744073709551616) with (2 ^ 64 - 1) by reflexivity.
    rewrite lxor_ones; [|lia|].
    + change (2 ^ 64) with 18446744073709551616; lia.
    + change (2 ^ 64) with 18446744073709551616; apply Z.mod_pos_bound; lia.
Qed.

Lemma encodeZigZag_range v : in_i64 v -> in_u64 (encodeZigZag v).
Proof.
  intros H; rewrite encodeZigZag_spec by exact H; unfold in_i64, in_u64 in *.
  change (2 ^ 64) with 18446744073709551616 in *.
  change (2 ^ 63) with 9223372036854775808 in *.
  destruct (Z.leb_spec 0 v); lia.
Qed.

Lemma decodeZigZag_spec v :
  in_u64 v -> decodeZigZag v = if v mod 2 =? 0 then v / 2 else - (v / 2) - 1.
Proof.
  unfold in_u64, decodeZigZag; intros H.
  rewrite Z.shiftr_div_pow2 by lia; change (2 ^ 1) with 2.
  change 1 with (Z.ones 1) at 1; rewrite Z.land_ones by lia; change (2 ^ 1) with 2.
  destruct (Z.eqb_spec (v mod 2) 0) as [E|E].
  - rewrite E; change (u64 (- 0)) with 0; rewrite Z.lxor_0_r.
    apply s64_id; unfold in_i64.
    change (2 ^ 64) with 18446744073709551616 in *.
    change (2 ^ 63) with 9223372036854775808 in *; lia.
  - replace (v mod 2) with 1 by lia.
    replace (u64 (- (1))) with (2 ^ 64 - 1) by reflexivity.
    rewrite lxor_ones by lia.
    unfold s64.
    change (2 ^ 64) with 18446744073709551616 in *.
    change (2 ^ 63) with 9223372036854775808 in *.
    rewrite Z.mod_small by lia; cbv zeta.
    destruct (Z.ltb_spec (18446744073709551616 - 1 - v / 2) 9223372036854775808); lia.
Qed.

Lemma decodeZigZag_range v : in_u64 v -> in_i64 (decodeZigZag v).
Proof.
  intros H; rewrite decodeZigZag_spec by exact H; unfold in_i64, in_u64 in *.
  change (2 ^ 64) with 18446744073709551616 in *.
  change (2 ^ 63) with 9223372036854775808 in *.
  destruct (Z.eqb_spec (v mod 2) 0); lia.
Qed.

Lemma zigzag_roundtrip v : in_i64 v -> decodeZigZag (encodeZigZag v) = v.
Proof.
  intros H; rewrite decodeZigZag_spec by (apply encodeZigZag_range; exact H).
  rewrite encodeZigZag_spec by exact H.
  destruct (Z.leb_spec 0 v).
  - destruct (Z.eqb_spec ((2 * v) mod 2) 0); lia.
  - destruct (Z.eqb_spec ((- 2 * v - 1) mod 2) 0); lia.
Qed.

(** ---- decoding what was encoded ---- *)
Lemma land128 b : is_byte b -> (Z.land b 128 =? 0) = (b <? 128).
Proof.
  unfold is_byte; intros H.
  assert (Hf : forallb (fun n => Bool.eqb (Z.land (Z.of_nat n) 128 =? 0) (Z.of_nat n <? 128))
                       (seq 0 256) = true) by (vm_compute; reflexivity).
  rewrite forallb_forall in Hf.
  specialize (Hf (Z.to_nat b)); rewrite in_seq in Hf.
  rewrite Z2Nat.id in Hf by lia.
  apply Bool.eqb_prop, Hf; lia.
Qed.

Lemma char_to_u64_small b : 0 <= b < 128 -> char_to_u64 b = b.
Proof.
  intros H; unfold char_to_u64; destruct (Z.ltb_spec b 128); [|lia].
  apply u64_id; unfold in_u64; change (2 ^ 64) with 18446744073709551616; lia.
Qed.

(** The ninth byte: the sign extension is shifted out. *)
Lemma char_to_u64_top b : is_byte b -> u64 (Z.shiftl (char_to_u64 b) 56) = b * 2 ^ 56.
Proof.
  unfold is_byte; intros H; rewrite shl_pow by lia; unfold char_to_u64, u64.
  change (2 ^ 64) with (256 * 2 ^ 56).
  set (P := 2 ^ 56) in *.
  assert (HP : P = 72057594037927936) by reflexivity.
  destruct (Z.ltb_spec b 128).
  - rewrite (Z.mod_small b) by lia; apply Z.mod_small; lia.
  - replace ((b - 256) mod (256 * P)) with (b - 256 + 256 * P)
      by (rewrite <- (Z_mod_plus_full (b - 256) 1 (256 * P)); symmetry; apply Z.mod_small; lia).
    replace ((b - 256 + 256 * P) * P) with (b * P + (P - 1) * (256 * P)) by ring.
    rewrite Z_mod_plus_full; apply Z.mod_small; lia.
Qed.

Lemma pow_split a b : 0 <= a -> 0 <= b -> 2 ^ (a + b) = 2 ^ a * 2 ^ b.
Proof. intros; apply Z.pow_add_r; assumption. Qed.

Lemma decU64_enc n : forall pre v rest val datalen,
  (n <= 8)%nat ->
  let shift := 7 * (8 - Z.of_nat n) in
  0 <= val < 2 ^ shift ->
  0 <= v < 2 ^ (64 - shift) ->
  zlen pre + zlen (encU64_loop n v) <= datalen ->
  decU64_loop n (pre ++ encU64_loop n v ++ rest) datalen (zlen pre) val shift
  = Ret (DOk (val + v * 2 ^ shift) (zlen pre + zlen (encU64_loop n v))).
Proof.
  induction n as [|n IH]; intros pre v rest val datalen Hn shift Hval Hv Hdl.
  - cbn [encU64_loop decU64_loop app]. rewrite rd_app_mid.
    subst shift; change (7 * (8 - Z.of_nat 0)) with 56 in *.
    change (64 - 56) with 8 in Hv; change (2 ^ 8) with 256 in Hv.
    rewrite (Z.mod_small v) by lia.
    rewrite char_to_u64_top by (unfold is_byte; lia).
    rewrite lor_add by lia.
    rewrite zlen_cons, zlen_nil; do 2 f_equal.
  - rewrite encU64_loop_step in * by lia.
    destruct (Z.leb_spec 128 v) as [Hbig|Hsmall].
    + cbn [decU64_loop app]. rewrite rd_app_mid.
      rewrite land128 by (unfold is_byte; lia).
      destruct (Z.ltb_spec (128 + v mod 128) 128); [lia|].
      rewrite zlen_cons in Hdl.
      pose proof (encU64_loop_len n (v / 128)) as Hel.
      destruct (Z.leb_spec datalen (zlen pre + 1)) as [Hl|_]; [exfalso; lia|].
      assert (Hb : Z.land (128 + v mod 128) 127 = v mod 128).
      { rewrite land127 by lia. lia. }
      rewrite Hb, shl_pow by (subst shift; lia).
      assert (Hs : 2 ^ (64 - shift) = 128 * 2 ^ (64 - (shift + 7))).
      { replace (64 - shift) with (7 + (64 - (shift + 7))) by lia.
        rewrite pow_split by (subst shift; lia); reflexivity. }
      assert (Hp64 : 2 ^ 64 = 2 ^ shift * 2 ^ (64 - shift)).
      { rewrite <- pow_split by (subst shift; lia); f_equal; lia. }
      assert (Hps : 0 < 2 ^ shift) by (apply Z.pow_pos_nonneg; subst shift; lia).
      assert (Hpt : 0 < 2 ^ (64 - (shift + 7))) by (apply Z.pow_pos_nonneg; subst shift; lia).
      assert (Hu : u64 (v mod 128 * 2 ^ shift) = v mod 128 * 2 ^ shift).
      { apply u64_id; unfold in_u64; rewrite Hp64, Hs; nia. }
      rewrite Hu, lor_add by (subst shift; lia).
      replace (pre ++ 128 + v mod 128 :: encU64_loop n (v / 128) ++ rest)
        with ((pre ++ [128 + v mod 128]) ++ encU64_loop n (v / 128) ++ rest)
        by (rewrite <- app_assoc; reflexivity).
      replace (zlen pre + 1) with (zlen (pre ++ [128 + v mod 128]))
        by (autorewrite with zlen; lia).
      assert (Hsh : shift + 7 = 7 * (8 - Z.of_nat n)) by (subst shift; lia).
      rewrite Hsh. rewrite IH; [| lia | | |autorewrite with zlen; lia].
      * rewrite <- Hsh. rewrite pow_split by (subst shift; lia).
        change (2 ^ 7) with 128.
        autorewrite with zlen. do 2 f_equal; [|lia].
        rewrite (Z.div_mod v 128) at 3 by lia. ring.
      * rewrite <- Hsh, pow_split by (subst shift; lia).
        change (2 ^ 7) with 128. nia.
      * rewrite <- Hsh. split; [lia|].
        apply Z.div_lt_upper_bound; lia.
    + cbn [decU64_loop app]. rewrite rd_app_mid.
      rewrite (Z.mod_small v) by lia.
      rewrite land128 by (unfold is_byte; lia).
      destruct (Z.ltb_spec v 128); [|lia].
      rewrite char_to_u64_small, shl_pow by (subst shift; lia).
      assert (Hp64 : 2 ^ 64 = 2 ^ shift * 2 ^ (64 - shift)).
      { rewrite <- pow_split by (subst shift; lia); f_equal; lia. }
      assert (Hps : 0 < 2 ^ shift) by (apply Z.pow_pos_nonneg; subst shift; lia).
      assert (Hu : u64 (v * 2 ^ shift) = v * 2 ^ shift).
      { apply u64_id; unfold in_u64; rewrite Hp64; nia. }
      rewrite Hu, lor_add by (subst shift; lia).
      rewrite zlen_cons, zlen_nil; do 2 f_equal.
Qed.

Lemma decodeVarU64_encode v rest :
  in_u64 v ->
  decodeVarU64 (encodeVarU64_str v ++ rest) (zlen (encodeVarU64_str v ++ rest)) 0
  = Ret (DOk v (zlen (encodeVarU64_str v))).
Proof.
  intros Hv; unfold decodeVarU64.
  change (0 <? 0) with false; cbv iota.
  destruct (Z.leb_spec (zlen (encodeVarU64_str v ++ rest)) 0) as [Hl|_].
  { exfalso. rewrite zlen_app in Hl.
    pose proof (encodeVarU64_str_len v); pose proof (zlen_nonneg rest).
    unfold in_u64 in Hv; lia. }
  pose proof (decU64_enc 8 [] v rest 0 (zlen (encU64_loop 8 v ++ rest))) as H.
  cbn [app] in H; cbv zeta in H.
  change (7 * (8 - Z.of_nat 8)) with 0 in H.
  change (64 - 0) with 64 in H; change (2 ^ 0) with 1 in H.
  change (zlen (@nil Z)) with 0 in H; unfold encodeVarU64_str.
  rewrite H; [do 2 f_equal; lia|lia|lia|exact Hv|].
  rewrite zlen_app; unfold encodeVarU64_str; pose proof (zlen_nonneg rest); lia.
Qed.

(** Decoding at a position in the middle of a buffer. *)
Lemma decodeVarU64_encode_at pre v rest datalen :
  in_u64 v -> zlen pre + zlen (encodeVarU64_str v) <= datalen ->
  decodeVarU64 (pre ++ encodeVarU64_str v ++ rest) datalen (zlen pre)
  = Ret (DOk v (zlen pre + zlen (encodeVarU64_str v))).
Proof.
  intros Hv Hd; unfold decodeVarU64.
  pose proof (zlen_nonneg pre); pose proof (encodeVarU64_str_len v) as Hl.
  unfold in_u64 in Hv.
  destruct (Z.ltb_spec (zlen pre) 0); [lia|].
  destruct (Z.leb_spec datalen (zlen pre)); [lia|].
  pose proof (decU64_enc 8 pre v rest 0 datalen) as HH.
  cbv zeta in HH.
  change (7 * (8 - Z.of_nat 8)) with 0 in HH.
  change (64 - 0) with 64 in HH; change (2 ^ 0) with 1 in HH.
  unfold encodeVarU64_str in *.
  rewrite HH; [do 2 f_equal; lia|lia|lia|exact Hv|exact Hd].
Qed.

(** A cut encoding is rejected. *)
Lemma decU64_enc_cut n : forall pre v rest val shift datalen,
  0 <= v -> zlen pre < datalen < zlen pre + zlen (encU64_loop n v) ->
  decU64_loop n (pre ++ encU64_loop n v ++ rest) datalen (zlen pre) val shift = Ret DFail.
Proof.
  induction n as [|n IH]; intros pre v rest val shift datalen Hv Hd.
  - cbn [encU64_loop] in Hd; rewrite zlen_cons, zlen_nil in Hd; lia.
  - rewrite encU64_loop_step in * by lia.
    destruct (Z.leb_spec 128 v) as [Hbig|Hsmall].
    + cbn [decU64_loop app]; rewrite rd_app_mid.
      rewrite land128 by (unfold is_byte; lia).
      destruct (Z.ltb_spec (128 + v mod 128) 128); [lia|].
      rewrite zlen_cons in Hd.
      destruct (Z.leb_spec datalen (zlen pre + 1)) as [Hl|Hl]; [reflexivity|].
      replace (pre ++ 128 + v mod 128 :: encU64_loop n (v / 128) ++ rest)
        with ((pre ++ [128 + v mod 128]) ++ encU64_loop n (v / 128) ++ rest)
        by (rewrite <- app_assoc; reflexivity).
      replace (zlen pre + 1) with (zlen (pre ++ [128 + v mod 128]))
        by (autorewrite with zlen; lia).
      apply IH; [lia|]; autorewrite with zlen; lia.
    + rewrite zlen_cons, zlen_nil in Hd; lia.
Qed.

Lemma decodeVarU64_cut pre v rest datalen :
  0 <= v -> datalen < zlen pre + zlen (encodeVarU64_str v) ->
  decodeVarU64 (pre ++ encodeVarU64_str v ++ rest) datalen (zlen pre) = Ret DFail.
Proof.
  intros Hv Hd; unfold decodeVarU64.
  destruct (Z.ltb_spec (zlen pre) 0); [reflexivity|].
  destruct (Z.leb_spec datalen (zlen pre)); [reflexivity|].
  apply decU64_enc_cut; [exact Hv|unfold encodeVarU64_str in Hd; lia].
Qed.

Lemma skipn_zlen_app {A} (l m : list A) : skipn (Z.to_nat (zlen l)) (l ++ m) = m.
Proof.
  unfold zlen; rewrite Nat2Z.id, skipn_app, Nat.sub_diag, skipn_all; reflexivity.
Qed.
Lemma firstn_zlen_app {A} (l m : list A) : firstn (Z.to_nat (zlen l)) (l ++ m) = l.
Proof.
  unfold zlen; rewrite Nat2Z.id, firstn_app, Nat.sub_diag, firstn_all; cbn [firstn].
  apply app_nil_r.
Qed.

(** [Decodes D v bs]: decoder [D] reads exactly [bs], whatever follows, and
    returns [v]. *)
Definition Decodes {A} (D : decoder A) (v : A) (bs : list Z) : Prop :=
  forall rest, D (bs ++ rest) = Ret (Some (v, rest)).

Lemma Decodes_UInt64 v : in_u64 v -> Decodes decodeUInt64 v (encodeVarU64_str v).
Proof.
  intros Hv rest; unfold decodeUInt64.
  rewrite decodeVarU64_encode by exact Hv; cbn [obind].
  pose proof (encodeVarU64_str_len v) as Hl; unfold in_u64 in Hv.
  destruct (Z.ltb_spec (zlen (encodeVarU64_str v)) 1); [lia|].
  unfold advance; rewrite zlen_app.
  destruct (Z.ltb_spec (zlen (encodeVarU64_str v) + zlen rest) (zlen (encodeVarU64_str v)));
    [pose proof (zlen_nonneg rest); lia|].
  rewrite skipn_zlen_app; reflexivity.
Qed.

Lemma Decodes_Int64 v : in_i64 v -> Decodes decodeInt64 v (encodeVarI64_str v).
Proof.
  intros Hv rest; unfold decodeInt64, decodeVarI64, encodeVarI64_str.
  pose proof (encodeZigZag_range v Hv) as Hz.
  rewrite decodeVarU64_encode by exact Hz; cbn [obind].
  pose proof (encodeVarU64_str_len (encodeZigZag v)) as Hl; unfold in_u64 in Hz.
  destruct (Z.ltb_spec (zlen (encodeVarU64_str (encodeZigZag v))) 1); [lia|].
  unfold advance; rewrite zlen_app.
  destruct (Z.ltb_spec (zlen (encodeVarU64_str (encodeZigZag v)) + zlen rest)
              (zlen (encodeVarU64_str (encodeZigZag v))));
    [pose proof (zlen_nonneg rest); lia|].
  rewrite skipn_zlen_app, zigzag_roundtrip by exact Hv; reflexivity.
Qed.

Lemma Decodes_Int32 v : in_i32 v -> Decodes decodeInt32 v (encodeVarI64_str v).
Proof.
  unfold in_i32; intros Hv rest; unfold decodeInt32.
  rewrite Decodes_Int64; cbn [obind].
  - change (2 ^ 31) with 2147483648 in *.
    match goal with |- context [if ?c then _ else _] => destruct c eqn:E end;
      [lia|reflexivity].
  - unfold in_i64. change (2 ^ 31) with 2147483648 in *.
    change (2 ^ 63) with 9223372036854775808; lia.
Qed.

Lemma Decodes_Int64C v : in_nat63 v -> Decodes decodeInt64C v (encodeVarU64_str v).
Proof.
  unfold in_nat63; intros Hv rest; unfold decodeInt64C.
  rewrite Decodes_UInt64; cbn [obind].
  - destruct (Z.ltb_spec (2 ^ 63 - 1) v); [lia|].
    rewrite s64_id; [reflexivity|unfold in_i64; lia].
  - unfold in_u64. change (2 ^ 64) with 18446744073709551616.
    change (2 ^ 63) with 9223372036854775808 in *; lia.
Qed.

Lemma Decodes_Int32C v : in_nat31 v -> Decodes decodeInt32C v (encodeVarU64_str v).
Proof.
  unfold in_nat31; intros Hv rest; unfold decodeInt32C.
  rewrite Decodes_Int64C; cbn [obind].
  - change (2 ^ 31) with 2147483648 in *.
    destruct (Z.ltb_spec (2147483648 - 1) v); [lia|].
    destruct (Z.ltb_spec v 0); [lia|reflexivity].
  - unfold in_nat63. change (2 ^ 31) with 2147483648 in *.
    change (2 ^ 63) with 9223372036854775808; lia.
Qed.

(** ---- fixed length ---- *)
Lemma le_bytes_len n v : length (le_bytes n v) = n.
Proof. revert v; induction n as [|n IH]; intros v; cbn [le_bytes length]; auto. Qed.
Lemma le_bytes_ok n v : bytes_ok (le_bytes n v).
Proof.
  revert v; induction n as [|n IH]; intros v; cbn [le_bytes]; constructor.
  - unfold is_byte; lia.
  - apply IH.
Qed.
Lemma le_value_bytes n v : 0 <= v < 2 ^ (8 * Z.of_nat n) -> le_value (le_bytes n v) = v.
Proof.
  revert v; induction n as [|n IH]; intros v Hv; cbn [le_bytes le_value].
  - change (2 ^ (8 * Z.of_nat 0)) with 1 in Hv; lia.
  - rewrite IH; [lia|].
    replace (8 * Z.of_nat (S n)) with (8 + 8 * Z.of_nat n) in Hv by lia.
    rewrite pow_split in Hv by lia; change (2 ^ 8) with 256 in Hv.
    split; [lia|apply Z.div_lt_upper_bound; lia].
Qed.
Lemma Decodes_Fixed n v :
  (1 <= n)%nat -> 0 <= v < 2 ^ (8 * Z.of_nat n - 1) ->
  Decodes (decodeIntFixedLength n) v (le_bytes n v).
Proof.
  intros Hn Hv rest; unfold decodeIntFixedLength.
  rewrite zlen_app; unfold zlen at 1; rewrite le_bytes_len.
  destruct (Z.ltb_spec (Z.of_nat n + zlen rest) (Z.of_nat n));
    [pose proof (zlen_nonneg rest); lia|].
  replace (firstn n (le_bytes n v ++ rest)) with (le_bytes n v).
  2:{ rewrite firstn_app, le_bytes_len, Nat.sub_diag, firstn_all2;
        [cbn [firstn]; rewrite app_nil_r; reflexivity|rewrite le_bytes_len; lia]. }
  assert (Hp : 2 ^ (8 * Z.of_nat n) = 2 * 2 ^ (8 * Z.of_nat n - 1)).
  { replace (8 * Z.of_nat n) with (1 + (8 * Z.of_nat n - 1)) at 1 by lia.
    rewrite pow_split by lia; reflexivity. }
  rewrite le_value_bytes by lia.
  unfold sx; destruct (Z.ltb_spec v (2 ^ (8 * Z.of_nat n - 1))); [|lia].
  cbv zeta; destruct (Z.ltb_spec v 0); [lia|].
  rewrite skipn_app, le_bytes_len, Nat.sub_diag.
  rewrite skipn_all2 by (rewrite le_bytes_len; lia); reflexivity.
Qed.

(** ---- strings ---- *)
Definition encodeString_str (s : list Z) : list Z := encodeVarU64_str (zlen s) ++ s.

Lemma Decodes_String s : in_u64 (zlen s) -> Decodes decodeString s (encodeString_str s).
Proof.
  intros Hs rest; unfold decodeString, encodeString_str.
  rewrite <- app_assoc, Decodes_UInt64 by exact Hs; cbn [obind].
  rewrite zlen_app.
  destruct (Z.ltb_spec (zlen s + zlen rest) (zlen s)); [pose proof (zlen_nonneg rest); lia|].
  rewrite firstn_zlen_app, skipn_zlen_app; reflexivity.
Qed.

(** ---- safety of decoders on arbitrary bytes ---- *)

Lemma decU64_loop_safe n : forall data datalen p val shift,
  bytes_ok data ->
  0 <= p < datalen -> datalen <= zlen data -> in_u64 val ->
  exists r, decU64_loop n data datalen p val shift = Ret r /\
    match r with
    | DFail => True
    | DOk v pos => in_u64 v /\ p < pos <= datalen /\ pos <= p + 1 + Z.of_nat n
    end.
Proof.
  induction n as [|n IH]; intros data datalen p val shift Hb Hp Hl Hv.
  - destruct (rd_in data p) as [b Eb]; [lia|].
    cbn [decU64_loop]; rewrite Eb; eexists; split; [reflexivity|].
    split; [apply lor_bound; [lia|exact Hv|apply u64_range]|lia].
  - destruct (rd_in data p) as [b Eb]; [lia|].
    cbn [decU64_loop]; rewrite Eb.
    destruct (Z.land b 128 =? 0).
    + eexists; split; [reflexivity|].
      split; [apply lor_bound; [lia|exact Hv|apply u64_range]|lia].
    + destruct (Z.leb_spec datalen (p + 1)).
      * eexists; split; [reflexivity|exact I].
      * destruct (IH data datalen (p + 1)
                   (Z.lor val (u64 (Z.shiftl (Z.land b 127) shift))) (shift + 7))
          as [r [Er Hr]]; [exact Hb|lia|exact Hl| |].
        { apply lor_bound; [lia|exact Hv|apply u64_range]. }
        cbv zeta; rewrite Er; exists r; split; [reflexivity|].
        destruct r as [v pos|]; [|exact I].
        destruct Hr as [H1 [H2 H3]]; split; [exact H1|lia].
Qed.

Lemma decodeVarU64_safe data datalen pos :
  bytes_ok data -> datalen <= zlen data ->
  exists r, decodeVarU64 data datalen pos = Ret r /\
    match r with
    | DFail => True
    | DOk v pos' => in_u64 v /\ 0 <= pos < pos' /\ pos' <= datalen /\ pos' <= pos + 9
    end.
Proof.
  intros Hb Hl; unfold decodeVarU64.
  destruct (Z.ltb_spec pos 0); [eexists; split; [reflexivity|exact I]|].
  destruct (Z.leb_spec datalen pos); [eexists; split; [reflexivity|exact I]|].
  destruct (decU64_loop_safe 8 data datalen pos 0 0) as [r [Er Hr]];
    [exact Hb|lia|exact Hl|unfold in_u64; lia|].
  exists r; split; [exact Er|].
  destruct r; [|exact I]; destruct Hr as [H1 [H2 H3]]; split; [exact H1|lia].
Qed.

Lemma advance_safe {A} (br : list Z) (n : Z) (a : A) :
  1 <= n <= zlen br ->
  advance br n a = Ret (Some (a, skipn (Z.to_nat n) br)) /\
  exists used, used <> [] /\ br = used ++ skipn (Z.to_nat n) br.
Proof.
  intros H; unfold advance; destruct (Z.ltb_spec (zlen br) n); [lia|].
  split; [reflexivity|].
  exists (firstn (Z.to_nat n) br); split; [|symmetry; apply firstn_skipn].
  intros E; apply (f_equal zlen) in E; rewrite zlen_firstn, zlen_nil in E; lia.
Qed.

Lemma SafeDec_UInt64 : SafeDec decodeUInt64 in_u64.
Proof.
  intros br Hb; unfold decodeUInt64.
  destruct (decodeVarU64_safe br (zlen br) 0 Hb) as [r [Er Hr]]; [lia|].
  rewrite Er; cbn [obind]; destruct r as [v pos|].
  - destruct Hr as [Hv [Hp1 [Hp2 Hp3]]].
    destruct (Z.ltb_spec pos 1); [lia|].
    destruct (advance_safe br pos v) as [Ea Hu]; [lia|].
    rewrite Ea; eexists; split; [reflexivity|].
    intros v' rest E; injection E as <- <-; auto.
  - eexists; split; [reflexivity|discriminate].
Qed.

Lemma SafeDec_Int64 : SafeDec decodeInt64 in_i64.
Proof.
  intros br Hb; unfold decodeInt64, decodeVarI64.
  destruct (decodeVarU64_safe br (zlen br) 0 Hb) as [r [Er Hr]]; [lia|].
  rewrite Er; cbn [obind]; destruct r as [v pos|]; cbn [obind].
  - destruct Hr as [Hv [Hp1 [Hp2 Hp3]]].
    destruct (Z.ltb_spec pos 1); [lia|].
    destruct (advance_safe br pos (decodeZigZag v)) as [Ea Hu]; [lia|].
    rewrite Ea; eexists; split; [reflexivity|].
    intros v' rest E; injection E as <- <-; split; [apply decodeZigZag_range, Hv|exact Hu].
  - eexists; split; [reflexivity|discriminate].
Qed.

Lemma SafeDec_weaken {A} (D : decoder A) (P Q : A -> Prop) :
  (forall a, P a -> Q a) -> SafeDec D P -> SafeDec D Q.
Proof.
  intros H S br Hb; destruct (S br Hb) as [r [Er Hr]]; exists r; split; [exact Er|].
  intros v rest E; destruct (Hr v rest E); auto.
Qed.

Lemma SafeDec_Int32 : SafeDec decodeInt32 in_i32.
Proof.
  intros br Hb; unfold decodeInt32.
  destruct (SafeDec_Int64 br Hb) as [r [Er Hr]]; rewrite Er; cbn [obind].
  destruct r as [[v rest]|]; [|eexists; split; [reflexivity|discriminate]].
  destruct (Hr v rest eq_refl) as [Hv Hu].
  destruct ((2 ^ 31 - 1 <? v) || (v <? - 2 ^ 31)) eqn:E.
  - eexists; split; [reflexivity|discriminate].
  - eexists; split; [reflexivity|].
    intros v' rest' Ee; injection Ee as <- <-; split; [unfold in_i32; lia|exact Hu].
Qed.

Lemma SafeDec_Int64C : SafeDec decodeInt64C in_nat63.
Proof.
  intros br Hb; unfold decodeInt64C.
  destruct (SafeDec_UInt64 br Hb) as [r [Er Hr]]; rewrite Er; cbn [obind].
  destruct r as [[v rest]|]; [|eexists; split; [reflexivity|discriminate]].
  destruct (Hr v rest eq_refl) as [Hv Hu].
  destruct (Z.ltb_spec (2 ^ 63 - 1) v).
  - eexists; split; [reflexivity|discriminate].
  - eexists; split; [reflexivity|].
    unfold in_u64 in Hv; rewrite s64_id by (unfold in_i64; lia).
    intros v' rest' Ee; injection Ee as <- <-; split; [unfold in_nat63; lia|exact Hu].
Qed.

Lemma SafeDec_Int32C : SafeDec decodeInt32C in_nat31.
Proof.
  intros br Hb; unfold decodeInt32C.
  destruct (SafeDec_Int64C br Hb) as [r [Er Hr]]; rewrite Er; cbn [obind].
  destruct r as [[v rest]|]; [|eexists; split; [reflexivity|discriminate]].
  destruct (Hr v rest eq_refl) as [Hv Hu].
  destruct ((2 ^ 31 - 1 <? v) || (v <? 0)) eqn:E.
  - eexists; split; [reflexivity|discriminate].
  - eexists; split; [reflexivity|].
    intros v' rest' Ee; injection Ee as <- <-; split; [unfold in_nat31; lia|exact Hu].
Qed.

Lemma le_value_range l : bytes_ok l -> 0 <= le_value l < 2 ^ (8 * zlen l).
Proof.
  induction l as [|b l IH]; intros H.
  - change (0 <= 0 < 1); lia.
  - inversion H as [|x y Hb Hl]; subst.
    specialize (IH Hl); cbn [le_value]; rewrite zlen_cons.
    replace (8 * (1 + zlen l)) with (8 + 8 * zlen l) by lia.
    rewrite pow_split by (pose proof (zlen_nonneg l); lia).
    change (2 ^ 8) with 256; unfold is_byte in Hb; lia.
Qed.

Lemma SafeDec_Fixed n : (1 <= n)%nat ->
  SafeDec (decodeIntFixedLength n) (fun v => 0 <= v < 2 ^ (8 * Z.of_nat n - 1)).
Proof.
  intros Hn br Hb; unfold decodeIntFixedLength.
  destruct (Z.ltb_spec (zlen br) (Z.of_nat n)); [eexists; split; [reflexivity|discriminate]|].
  pose proof (le_value_range (firstn n br) (bytes_ok_firstn _ _ Hb)) as Hr.
  assert (Hlen : zlen (firstn n br) = Z.of_nat n)
    by (unfold zlen in *; rewrite firstn_length; lia).
  rewrite Hlen in Hr.
  assert (Hp : 2 ^ (8 * Z.of_nat n) = 2 * 2 ^ (8 * Z.of_nat n - 1)).
  { replace (8 * Z.of_nat n) with (1 + (8 * Z.of_nat n - 1)) at 1 by lia.
    rewrite pow_split by lia; reflexivity. }
  cbv zeta; unfold sx.
  destruct (Z.ltb_spec (le_value (firstn n br)) (2 ^ (8 * Z.of_nat n - 1))).
  - destruct (Z.ltb_spec (le_value (firstn n br)) 0); [lia|].
    eexists; split; [reflexivity|].
    intros v rest E; injection E as <- <-; split; [lia|].
    exists (firstn n br); split; [|symmetry; apply firstn_skipn].
    intros E; rewrite E, zlen_nil in Hlen; lia.
  - destruct (Z.ltb_spec (le_value (firstn n br) - 2 ^ (8 * Z.of_nat n)) 0); [|lia].
    eexists; split; [reflexivity|discriminate].
Qed.

Lemma SafeDec_String : SafeDec decodeString bytes_ok.
Proof.
  intros br Hb; unfold decodeString.
  destruct (SafeDec_UInt64 br Hb) as [r [Er Hr]]; rewrite Er; cbn [obind].
  destruct r as [[n rest]|]; [|eexists; split; [reflexivity|discriminate]].
  destruct (Hr n rest eq_refl) as [Hn [used [Hu Hbr]]].
  destruct (Z.ltb_spec (zlen rest) n).
  - eexists; split; [reflexivity|discriminate].
  - eexists; split; [reflexivity|].
    intros v rest' E; injection E as <- <-.
    subst br; apply bytes_ok_app in Hb; destruct Hb as [_ Hbr].
    split; [apply bytes_ok_firstn, Hbr|].
    exists (used ++ firstn (Z.to_nat n) rest); split.
    + intros E; apply app_eq_nil in E; tauto.
    + rewrite <- app_assoc, firstn_skipn; reflexivity.
Qed.

(** A declared length larger than what follows is refused. *)
Lemma decodeString_short n rest :
  in_u64 n -> zlen rest < n -> decodeString (encodeVarU64_str n ++ rest) = Ret None.
Proof.
  intros Hn Hl; unfold decodeString; rewrite Decodes_UInt64 by exact Hn; cbn [obind].
  destruct (Z.ltb_spec (zlen rest) n); [reflexivity|lia].
Qed.

(** ---- buffer encoders ---- *)
(** [Encodes E bs]: in any buffer, the encoder [E] writes exactly [bs] at [off]
    when that fits below [sz] and succeeds; otherwise it fails; it never
    touches anything outside [off, sz). *)
Definition Encodes (E : list Z -> Z -> Z -> outcome encres) (bs : list Z) : Prop :=
  forall buf sz off, 0 <= off -> sz <= zlen buf ->
  exists r, E buf sz off = Ret r /\
    er_ok r = (off + zlen bs <=? sz) /\
    (er_ok r = true -> er_buf r = splice buf off bs /\ er_pos r = off + zlen bs) /\
    (er_ok r = false -> same_outside buf (er_buf r) off sz) /\
    off <= er_pos r <= Z.max off sz.

Lemma Encodes_frame E bs buf sz off r :
  Encodes E bs -> 0 <= off -> sz <= zlen buf -> E buf sz off = Ret r ->
  same_outside buf (er_buf r) off sz.
Proof.
  intros HE H0 Hs Er; destruct (HE buf sz off H0 Hs) as [r' [Er' [Hok [Ht [Hf Hp]]]]].
  rewrite Er in Er'; injection Er' as <-.
  destruct (er_ok r) eqn:E1.
  - destruct (Ht eq_refl) as [-> _]; apply same_outside_splice; lia.
  - auto.
Qed.

Lemma encU64_buf_loop_spec n : forall count buf datasz pos0 p v,
  0 <= v -> 0 <= p -> 0 <= pos0 -> p = pos0 + count -> datasz <= zlen buf ->
  exists r, encU64_buf_loop n count buf datasz pos0 p v = Ret r /\
    er_ok r = (p + zlen (encU64_loop n v) <=? datasz) /\
    (er_ok r = true -> er_buf r = splice buf p (encU64_loop n v) /\
                       er_pos r = p + zlen (encU64_loop n v)) /\
    (er_ok r = false -> same_outside buf (er_buf r) p datasz /\ er_pos r = pos0).
Proof.
  induction n as [|n IH]; intros count buf datasz pos0 p v Hv Hp Hp0 Hc Hd.
  - cbn [encU64_buf_loop encU64_loop]; rewrite zlen_cons, zlen_nil.
    destruct (Z.leb_spec datasz p).
    + eexists; split; [reflexivity|]; cbn [er_ok er_buf er_pos].
      destruct (Z.leb_spec (p + (1 + 0)) datasz); [lia|].
      split; [reflexivity|]; split; [discriminate|].
      intros _; split; [apply same_outside_refl|reflexivity].
    + rewrite upd_in by lia.
      eexists; split; [reflexivity|]; cbn [er_ok er_buf er_pos].
      destruct (Z.leb_spec (p + (1 + 0)) datasz); [|lia].
      split; [reflexivity|]; split; [|discriminate].
      intros _; split; [reflexivity|lia].
  - cbn [encU64_buf_loop]; rewrite encU64_loop_step by lia.
    rewrite land127, shr7, lor128 by lia.
    destruct (Z.leb_spec 128 v) as [Hbig|Hsmall].
    + pose proof (encU64_loop_len n (v / 128)) as Hlen.
      rewrite zlen_cons.
      destruct (Z.leb_spec datasz p).
      * eexists; split; [reflexivity|]; cbn [er_ok er_buf er_pos].
        destruct (Z.leb_spec (p + (1 + zlen (encU64_loop n (v / 128)))) datasz); [lia|].
        split; [reflexivity|]; split; [discriminate|].
        intros _; split; [apply same_outside_refl|reflexivity].
      * rewrite upd_in by lia.
        assert (Hone : zlen [128 + v mod 128] = 1) by reflexivity.
        destruct (IH (count + 1) (splice buf p [128 + v mod 128]) datasz pos0 (p + 1) (v / 128))
          as [r [Er [Hok [Ht Hf]]]]; try lia.
        { rewrite zlen_splice; lia. }
        exists r; split; [exact Er|].
        replace (p + (1 + zlen (encU64_loop n (v / 128))))
          with (p + 1 + zlen (encU64_loop n (v / 128))) by lia.
        split; [exact Hok|]; split.
        -- intros E; destruct (Ht E) as [Hb1 Hb2].
           rewrite E in Hok; symmetry in Hok; apply Z.leb_le in Hok.
           split; [|lia].
           rewrite Hb1; change (128 + v mod 128 :: encU64_loop n (v / 128))
             with ([128 + v mod 128] ++ encU64_loop n (v / 128)).
           rewrite <- splice_app; [rewrite Hone; reflexivity|lia|].
           rewrite zlen_app; lia.
        -- intros E; destruct (Hf E) as [Hb1 Hb2]; split; [|exact Hb2].
           eapply same_outside_trans with (a' := p + 1); [lia| |exact Hb1].
           apply same_outside_splice; lia.
    + rewrite zlen_cons, zlen_nil.
      destruct (Z.leb_spec datasz p).
      * eexists; split; [reflexivity|]; cbn [er_ok er_buf er_pos].
        destruct (Z.leb_spec (p + (1 + 0)) datasz); [lia|].
        split; [reflexivity|]; split; [discriminate|].
        intros _; split; [apply same_outside_refl|reflexivity].
      * rewrite upd_in by lia.
        eexists; split; [reflexivity|]; cbn [er_ok er_buf er_pos].
        destruct (Z.leb_spec (p + (1 + 0)) datasz); [|lia].
        split; [reflexivity|]; split; [|discriminate].
        intros _; split; [reflexivity|lia].
Qed.

Lemma encodeVarU64_spec buf datasz pos v :
  0 <= v -> 0 <= pos -> datasz <= zlen buf ->
  exists r, encodeVarU64 buf datasz pos v = Ret r /\
    er_ok r = (pos + zlen (encodeVarU64_str v) <=? datasz) /\
    (er_ok r = true -> er_buf r = splice buf pos (encodeVarU64_str v) /\
                       er_pos r = pos + zlen (encodeVarU64_str v)) /\
    (er_ok r = false -> same_outside buf (er_buf r) pos datasz /\ er_pos r = pos).
Proof.
  intros Hv Hp Hd; unfold encodeVarU64.
  destruct (Z.ltb_spec pos 0); [lia|].
  apply encU64_buf_loop_spec; lia.
Qed.

Lemma Encodes_VarU64 v : 0 <= v ->
  Encodes (fun buf sz off => encodeVarU64 buf sz off v) (encodeVarU64_str v).
Proof.
  intros Hv buf sz off H0 Hs.
  destruct (encodeVarU64_spec buf sz off v Hv H0 Hs) as [r [Er [Hok [Ht Hf]]]].
  exists r; split; [exact Er|]; split; [exact Hok|]; split; [exact Ht|].
  pose proof (encodeVarU64_str_len v Hv).
  destruct (er_ok r) eqn:E.
  - split; [discriminate|]; destruct (Ht eq_refl) as [_ ->]; lia.
  - destruct (Hf eq_refl) as [H1 ->]; split; [auto|lia].
Qed.

Lemma Encodes_VarI64 v : in_i64 v ->
  Encodes (fun buf sz off => encodeVarI64 buf sz off v) (encodeVarI64_str v).
Proof.
  intros Hv; unfold encodeVarI64; apply Encodes_VarU64.
  pose proof (encodeZigZag_range v Hv) as H; unfold in_u64 in H; lia.
Qed.

Lemma Encodes_VarI64C v : in_nat63 v ->
  Encodes (fun buf sz off => encodeVarI64C buf sz off v) (encodeVarU64_str v).
Proof.
  unfold in_nat63; intros Hv buf sz off H0 Hs; unfold encodeVarI64C.
  destruct (Z.ltb_spec v 0); [lia|].
  rewrite u64_id.
  - apply Encodes_VarU64; lia.
  - unfold in_u64; change (2 ^ 64) with 18446744073709551616.
    change (2 ^ 63) with 9223372036854775808 in *; lia.
Qed.

Lemma store_eq buf i bs :
  0 <= i -> i + zlen bs <= zlen buf -> store buf i bs = Some (splice buf i bs).
Proof. intros H1 H2; apply store_splice; auto. Qed.

Lemma Encodes_Fixed n v :
  Encodes (fun buf sz off => encodeIntFixedLength n buf sz off v) (le_bytes n v).
Proof.
  intros buf sz off H0 Hs; unfold encodeIntFixedLength.
  assert (Hl : zlen (le_bytes n v) = Z.of_nat n) by (unfold zlen; rewrite le_bytes_len; lia).
  rewrite Hl.
  destruct (Z.ltb_spec sz (off + Z.of_nat n)).
  - eexists; split; [reflexivity|]; cbn [er_ok er_buf er_pos].
    destruct (Z.leb_spec (off + Z.of_nat n) sz); [lia|].
    split; [reflexivity|]; split; [discriminate|]; split; [|lia].
    intros _; apply same_outside_refl.
  - rewrite store_eq by lia.
    eexists; split; [reflexivity|]; cbn [er_ok er_buf er_pos].
    destruct (Z.leb_spec (off + Z.of_nat n) sz); [|lia].
    split; [reflexivity|]; split; [auto|]; split; [discriminate|lia].
Qed.

Lemma Encodes_String s :
  Encodes (fun buf sz off => encodeString buf sz off s) (encodeString_str s).
Proof.
  intros buf sz off H0 Hs; unfold encodeString, encodeString_str.
  destruct (encodeVarU64_spec buf sz off (zlen s) (zlen_nonneg s) H0 Hs) as [r [Er [Hok [Ht Hf]]]].
  rewrite Er; cbn [obind]; rewrite zlen_app.
  pose proof (zlen_nonneg s); pose proof (encodeVarU64_str_len (zlen s) (zlen_nonneg s)).
  destruct (er_ok r) eqn:E; cbn [negb].
  - destruct (Ht eq_refl) as [Hb Hp].
    symmetry in Hok; apply Z.leb_le in Hok.
    rewrite Hp, Hb.
    destruct (Z.ltb_spec sz (off + zlen (encodeVarU64_str (zlen s)) + zlen s)).
    + eexists; split; [reflexivity|]; cbn [er_ok er_buf er_pos].
      destruct (Z.leb_spec (off + (zlen (encodeVarU64_str (zlen s)) + zlen s)) sz); [lia|].
      split; [reflexivity|]; split; [discriminate|]; split; [|lia].
      intros _; apply same_outside_splice; lia.
    + rewrite store_eq by (rewrite ?zlen_splice; lia).
      eexists; split; [reflexivity|]; cbn [er_ok er_buf er_pos].
      destruct (Z.leb_spec (off + (zlen (encodeVarU64_str (zlen s)) + zlen s)) sz); [|lia].
      split; [reflexivity|]; split; [|split; [discriminate|lia]].
      intros _; split; [|lia].
      rewrite <- splice_app; [reflexivity|lia|rewrite zlen_app; lia].
  - destruct (Hf eq_refl) as [Hb Hp].
    exists r; split; [reflexivity|].
    symmetry in Hok; apply Z.leb_gt in Hok.
    rewrite E; destruct (Z.leb_spec (off + (zlen (encodeVarU64_str (zlen s)) + zlen s)) sz); [lia|].
    split; [reflexivity|]; split; [discriminate|]; split; [auto|lia].
Qed.

(** Sequencing with the C++ [&&]. *)

Lemma Encodes_seq E1 E2 b1 b2 :
  Encodes E1 b1 -> Encodes E2 b2 -> Encodes (enc_seq E1 E2) (b1 ++ b2).
Proof.
  intros H1 H2 buf sz off H0 Hs; unfold enc_seq.
  destruct (H1 buf sz off H0 Hs) as [r [Er [Hok [Ht [Hf Hp]]]]].
  rewrite Er; cbn [obind]; rewrite zlen_app.
  pose proof (zlen_nonneg b1); pose proof (zlen_nonneg b2).
  destruct (er_ok r) eqn:E.
  - destruct (Ht eq_refl) as [Hb Hpos].
    symmetry in Hok; apply Z.leb_le in Hok.
    destruct (H2 (er_buf r) sz (er_pos r)) as [r2 [Er2 [Hok2 [Ht2 [Hf2 Hp2]]]]]; [lia| |].
    { rewrite Hb, zlen_splice; lia. }
    exists r2; split; [exact Er2|].
    rewrite Hpos in Hok2.
    replace (off + (zlen b1 + zlen b2)) with (off + zlen b1 + zlen b2) by lia.
    split; [exact Hok2|]; split; [|split; [|lia]].
    + intros E2'; destruct (Ht2 E2') as [Hb2 Hpos2].
      rewrite E2' in Hok2; symmetry in Hok2; apply Z.leb_le in Hok2.
      split; [|lia].
      rewrite Hb2, Hb, Hpos, splice_app; [reflexivity|lia|rewrite zlen_app; lia].
    + intros E2'; specialize (Hf2 E2').
      eapply same_outside_trans with (a' := er_pos r); [lia| |exact Hf2].
      rewrite Hb; apply same_outside_splice; lia.
  - exists r; split; [reflexivity|]; rewrite E.
    symmetry in Hok; apply Z.leb_gt in Hok.
    destruct (Z.leb_spec (off + (zlen b1 + zlen b2)) sz); [lia|].
    split; [reflexivity|]; split; [discriminate|]; split; [exact Hf|lia].
Qed.

Lemma Encodes_ext E1 E2 bs :
  (forall b s o, E1 b s o = E2 b s o) -> Encodes E1 bs -> Encodes E2 bs.
Proof. intros H H1 buf sz off; rewrite <- H; apply H1. Qed.

(** Decoder sequencing. *)

Lemma Decodes_bind {A B} (D : decoder A) (f : A -> decoder B) a b bs1 bs2 :
  Decodes D a bs1 -> Decodes (f a) b bs2 -> Decodes (dbind D f) b (bs1 ++ bs2).
Proof.
  intros H1 H2 rest; unfold dbind; rewrite <- app_assoc, H1; cbn [obind]; apply H2.
Qed.
Lemma Decodes_ret {A} (a : A) : Decodes (dret a) a [].
Proof. intros rest; reflexivity. Qed.

(** ---- lemmas in the form of the properties ---- *)
Lemma varu64_buffer_roundtrip v buf datasz pos :
  in_u64 v -> 0 <= pos -> datasz <= zlen buf -> pos + 9 <= datasz ->
  exists buf' pos',
    encodeVarU64 buf datasz pos v = Ret {| er_ok := true; er_buf := buf'; er_pos := pos' |} /\
    pos + 1 <= pos' <= pos + 9 /\
    forall datalen, pos' <= datalen -> decodeVarU64 buf' datalen pos = Ret (DOk v pos').
Proof.
  intros Hv Hp Hd Hr; unfold in_u64 in Hv.
  destruct (encodeVarU64_spec buf datasz pos v) as [r [Er [Hok [Ht Hf]]]]; try lia.
  pose proof (encodeVarU64_str_len v) as Hl.
  destruct r as [ok b' p']; cbn [er_ok er_buf er_pos] in *.
  destruct (Z.leb_spec (pos + zlen (encodeVarU64_str v)) datasz); [|lia].
  subst ok; destruct (Ht eq_refl) as [-> ->].
  eexists; eexists; split; [exact Er|]; split; [lia|].
  intros datalen Hdl; unfold splice.
  assert (Hpre : zlen (firstn (Z.to_nat pos) buf) = pos) by (rewrite zlen_firstn; lia).
  pose proof (decodeVarU64_encode_at (firstn (Z.to_nat pos) buf) v
    (skipn (Z.to_nat pos + length (encodeVarU64_str v)) buf) datalen) as HH.
  rewrite Hpre in HH; apply HH; assumption.
Qed.

Lemma vari64_buffer_roundtrip v buf datasz pos :
  in_i64 v -> 0 <= pos -> datasz <= zlen buf -> pos + 9 <= datasz ->
  exists buf' pos',
    encodeVarI64 buf datasz pos v = Ret {| er_ok := true; er_buf := buf'; er_pos := pos' |} /\
    pos + 1 <= pos' <= pos + 9 /\
    forall datalen, pos' <= datalen -> decodeVarI64 buf' datalen pos = Ret (DOk v pos').
Proof.
  intros Hv Hp Hd Hr.
  destruct (varu64_buffer_roundtrip (encodeZigZag v) buf datasz pos) as [b' [p' [E [Hl H]]]];
    try assumption; [apply encodeZigZag_range, Hv|].
  exists b', p'; split; [exact E|]; split; [exact Hl|].
  intros datalen Hdl; unfold decodeVarI64; rewrite H by exact Hdl; cbn [obind].
  rewrite zigzag_roundtrip by exact Hv; reflexivity.
Qed.

Lemma range_roundtrips rest :
  (forall v, in_u64 v -> decodeUInt64 (encodeVarU64_str v ++ rest) = Ret (Some (v, rest))) /\
  (forall v, in_i64 v -> decodeInt64 (encodeVarI64_str v ++ rest) = Ret (Some (v, rest))) /\
  (forall v, in_i32 v -> decodeInt32 (encodeVarI64_str v ++ rest) = Ret (Some (v, rest))) /\
  (forall v, in_nat63 v -> decodeInt64C (encodeVarU64_str v ++ rest) = Ret (Some (v, rest))) /\
  (forall v, in_nat31 v -> decodeInt32C (encodeVarU64_str v ++ rest) = Ret (Some (v, rest))).
Proof.
  repeat split; intros v Hv.
  - apply Decodes_UInt64, Hv.
  - apply Decodes_Int64, Hv.
  - apply Decodes_Int32, Hv.
  - apply Decodes_Int64C, Hv.
  - apply Decodes_Int32C, Hv.
Qed.

Lemma fixed_roundtrip n v rest :
  (1 <= n)%nat -> 0 <= v < 2 ^ (8 * Z.of_nat n - 1) ->
  forall buf sz off, 0 <= off -> sz <= zlen buf -> off + Z.of_nat n <= sz ->
  exists buf', encodeIntFixedLength n buf sz off v
               = Ret {| er_ok := true; er_buf := buf'; er_pos := off + Z.of_nat n |} /\
    decodeIntFixedLength n (slice buf' off (Z.of_nat n) ++ rest) = Ret (Some (v, rest)).
Proof.
  intros Hn Hv buf sz off H0 Hs Hr.
  destruct (Encodes_Fixed n v buf sz off H0 Hs) as [r [Er [Hok [Ht _]]]].
  assert (Hl : zlen (le_bytes n v) = Z.of_nat n) by (unfold zlen; rewrite le_bytes_len; lia).
  destruct r as [ok b' p']; cbn [er_ok er_buf er_pos] in *.
  rewrite Hl in *.
  destruct (Z.leb_spec (off + Z.of_nat n) sz); [|lia].
  subst ok; destruct (Ht eq_refl) as [-> ->].
  eexists; split; [exact Er|].
  rewrite <- Hl, slice_splice by lia.
  apply Decodes_Fixed; assumption.
Qed.

Lemma decode_cut_rejected v datalen pre rest :
  in_u64 v -> datalen < zlen pre + zlen (encodeVarU64_str v) ->
  decodeVarU64 (pre ++ encodeVarU64_str v ++ rest) datalen (zlen pre) = Ret DFail.
Proof. intros Hv; apply decodeVarU64_cut; unfold in_u64 in Hv; lia. Qed.

Lemma encode_int_frame v buf datasz pos :
  in_u64 v -> 0 <= pos -> datasz <= zlen buf ->
  exists r, encodeVarU64 buf datasz pos v = Ret r /\
    same_outside buf (er_buf r) pos datasz /\
    (er_ok r = true <-> pos + zlen (encodeVarU64_str v) <= datasz) /\
    (er_ok r = true -> slice (er_buf r) pos (er_pos r - pos) = encodeVarU64_str v) /\
    (er_ok r = false -> er_pos r = pos).
Proof.
  intros Hv Hp Hd; unfold in_u64 in Hv.
  destruct (encodeVarU64_spec buf datasz pos v) as [r [Er [Hok [Ht Hf]]]]; try lia.
  exists r; split; [exact Er|].
  destruct (er_ok r) eqn:E.
  - destruct (Ht eq_refl) as [Hb Hps].
    symmetry in Hok; apply Z.leb_le in Hok.
    split; [rewrite Hb; apply same_outside_splice; lia|].
    split; [split; auto|]; split; [|discriminate].
    intros _; rewrite Hb, Hps.
    replace (pos + zlen (encodeVarU64_str v) - pos) with (zlen (encodeVarU64_str v)) by lia.
    apply slice_splice; lia.
  - destruct (Hf eq_refl) as [Hb Hps].
    symmetry in Hok; apply Z.leb_gt in Hok.
    split; [exact Hb|]; split; [split; [discriminate|lia]|]; split; [discriminate|auto].
Qed.

Lemma encode_string_frame s buf sz off :
  0 <= off -> sz <= zlen buf ->
  exists r, encodeString buf sz off s = Ret r /\
    same_outside buf (er_buf r) off sz /\
    (er_ok r = true <-> off + zlen (encodeVarU64_str (zlen s)) + zlen s <= sz) /\
    (er_ok r = true -> slice (er_buf r) off (er_pos r - off) = encodeVarU64_str (zlen s) ++ s).
Proof.
  intros H0 Hs.
  destruct (Encodes_String s buf sz off H0 Hs) as [r [Er [Hok [Ht [Hf Hp]]]]].
  exists r; split; [exact Er|].
  split; [eapply Encodes_frame; [apply (Encodes_String s)|exact H0|exact Hs|exact Er]|].
  unfold encodeString_str in *; rewrite zlen_app in *.
  split.
  - rewrite Hok, Z.leb_le; lia.
  - intros E; destruct (Ht E) as [Hb Hps].
    rewrite E in Hok; symmetry in Hok; apply Z.leb_le in Hok.
    rewrite Hb, Hps, <- zlen_app.
    replace (off + zlen (encodeVarU64_str (zlen s) ++ s) - off)
      with (zlen (encodeVarU64_str (zlen s) ++ s)) by lia.
    apply slice_splice; rewrite ?zlen_app; lia.
Qed.

Lemma string_roundtrip s buf sz off rest :
  zlen s < 2 ^ 63 -> 0 <= off -> sz <= zlen buf -> off + 9 + zlen s <= sz ->
  exists buf' off',
    encodeString buf sz off s = Ret {| er_ok := true; er_buf := buf'; er_pos := off' |} /\
    off' <= sz /\
    decodeString (slice buf' off (off' - off) ++ rest) = Ret (Some (s, rest)).
Proof.
  intros Hs H0 Hsz Hr.
  destruct (encode_string_frame s buf sz off H0 Hsz) as [r [Er [_ [Hok Hsl]]]].
  pose proof (encodeVarU64_str_len (zlen s) (zlen_nonneg s)).
  assert (Hok' : er_ok r = true) by (apply Hok; lia).
  destruct (Encodes_String s buf sz off H0 Hsz) as [r' [Er' [_ [_ [_ Hp]]]]].
  rewrite Er in Er'; injection Er' as <-.
  destruct r as [ok b' p']; cbn [er_ok er_buf er_pos] in *; subst ok.
  exists b', p'; split; [exact Er|]; split; [pose proof (zlen_nonneg s); lia|].
  rewrite Hsl by reflexivity.
  apply Decodes_String; unfold in_u64; pose proof (zlen_nonneg s).
  change (2 ^ 64) with 18446744073709551616; change (2 ^ 63) with 9223372036854775808 in *; lia.
Qed.
