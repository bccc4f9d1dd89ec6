(** Facts about the wire messages. *)
From Verif Require Export Proofs.VarintFacts Spec.ProtocolSpec.

Local Opaque Z.pow.

(** ---- combinators ---- *)

(** [enc_nil] succeeds even when [off > sz], so the chain lemma is about
    chains that begin with a real encoder; we use a variant for tails. *)
Definition EncodesT (E : encoder) (bs : list Z) : Prop :=
  forall buf sz off, 0 <= off <= sz -> sz <= zlen buf ->
  exists r, E buf sz off = Ret r /\
    er_ok r = (off + zlen bs <=? sz) /\
    (er_ok r = true -> er_buf r = splice buf off bs /\ er_pos r = off + zlen bs) /\
    (er_ok r = false -> same_outside buf (er_buf r) off sz) /\
    off <= er_pos r <= Z.max off sz.

Lemma Encodes_T E bs : Encodes E bs -> EncodesT E bs.
Proof. intros H buf sz off H0 Hs; apply H; lia. Qed.

Lemma EncodesT_nil : EncodesT enc_nil [].
Proof.
  intros buf sz off H0 Hs; eexists; split; [reflexivity|]; cbn [er_ok er_buf er_pos].
  change (zlen (@nil Z)) with 0.
  destruct (Z.leb_spec (off + 0) sz); [|lia].
  split; [reflexivity|]; split.
  - intros _; rewrite splice_nil; split; [reflexivity|lia].
  - split; [discriminate|lia].
Qed.

Lemma Encodes_seqT E1 E2 b1 b2 :
  Encodes E1 b1 -> EncodesT E2 b2 -> Encodes (enc_seq E1 E2) (b1 ++ b2).
Proof.
  intros H1 H2 buf sz off H0 Hs; unfold enc_seq.
  destruct (H1 buf sz off H0 Hs) as [r [Er [Hok [Ht [Hf Hp]]]]].
  rewrite Er; cbn [obind]; rewrite zlen_app.
  pose proof (zlen_nonneg b1); pose proof (zlen_nonneg b2).
  destruct (er_ok r) eqn:E.
  - destruct (Ht eq_refl) as [Hb Hpos].
    symmetry in Hok; apply Z.leb_le in Hok.
    destruct (H2 (er_buf r) sz (er_pos r)) as [r2 [Er2 [Hok2 [Ht2 [Hf2 Hp2]]]]]; [lia| |].
    { rewrite Hb, zlen_splice; lia. }
    exists r2; split; [exact Er2|].
    rewrite Hpos in Hok2.
    replace (off + (zlen b1 + zlen b2)) with (off + zlen b1 + zlen b2) by lia.
    split; [exact Hok2|]; split; [|split; [|lia]].
    + intros E2'; destruct (Ht2 E2') as [Hb2 Hpos2].
      rewrite E2' in Hok2; symmetry in Hok2; apply Z.leb_le in Hok2.
      split; [|lia].
      rewrite Hb2, Hb, Hpos, splice_app; [reflexivity|lia|rewrite zlen_app; lia].
    + intros E2'; specialize (Hf2 E2').
      eapply same_outside_trans with (a' := er_pos r); [lia| |exact Hf2].
      rewrite Hb; apply same_outside_splice; lia.
  - exists r; split; [reflexivity|]; rewrite E.
    symmetry in Hok; apply Z.leb_gt in Hok.
    destruct (Z.leb_spec (off + (zlen b1 + zlen b2)) sz); [lia|].
    split; [reflexivity|]; split; [discriminate|]; split; [exact Hf|lia].
Qed.

Lemma EncodesT_seq E1 E2 b1 b2 :
  EncodesT E1 b1 -> EncodesT E2 b2 -> EncodesT (enc_seq E1 E2) (b1 ++ b2).
Proof.
  intros H1 H2 buf sz off H0 Hs; unfold enc_seq.
  destruct (H1 buf sz off H0 Hs) as [r [Er [Hok [Ht [Hf Hp]]]]].
  rewrite Er; cbn [obind]; rewrite zlen_app.
  pose proof (zlen_nonneg b1); pose proof (zlen_nonneg b2).
  destruct (er_ok r) eqn:E.
  - destruct (Ht eq_refl) as [Hb Hpos].
    symmetry in Hok; apply Z.leb_le in Hok.
    destruct (H2 (er_buf r) sz (er_pos r)) as [r2 [Er2 [Hok2 [Ht2 [Hf2 Hp2]]]]]; [lia| |].
    { rewrite Hb, zlen_splice; lia. }
    exists r2; split; [exact Er2|].
    rewrite Hpos in Hok2.
    replace (off + (zlen b1 + zlen b2)) with (off + zlen b1 + zlen b2) by lia.
    split; [exact Hok2|]; split; [|split; [|lia]].
    + intros E2'; destruct (Ht2 E2') as [Hb2 Hpos2].
      rewrite E2' in Hok2; symmetry in Hok2; apply Z.leb_le in Hok2.
      split; [|lia].
      rewrite Hb2, Hb, Hpos, splice_app; [reflexivity|lia|rewrite zlen_app; lia].
    + intros E2'; specialize (Hf2 E2').
      eapply same_outside_trans with (a' := er_pos r); [lia| |exact Hf2].
      rewrite Hb; apply same_outside_splice; lia.
  - exists r; split; [reflexivity|]; rewrite E.
    symmetry in Hok; apply Z.leb_gt in Hok.
    destruct (Z.leb_spec (off + (zlen b1 + zlen b2)) sz); [lia|].
    split; [reflexivity|]; split; [discriminate|]; split; [exact Hf|lia].
Qed.

Lemma Encodes_Byte b : Encodes (encodeByte b) [b].
Proof.
  intros buf sz off H0 Hs; unfold encodeByte; change (zlen [b]) with 1.
  destruct (Z.leb_spec sz off).
  - eexists; split; [reflexivity|]; cbn [er_ok er_buf er_pos].
    destruct (Z.leb_spec (off + 1) sz); [lia|].
    split; [reflexivity|]; split; [discriminate|]; split; [|lia].
    intros _; apply same_outside_refl.
  - rewrite upd_in by lia.
    eexists; split; [reflexivity|]; cbn [er_ok er_buf er_pos].
    destruct (Z.leb_spec (off + 1) sz); [|lia].
    split; [reflexivity|]; split; [auto|]; split; [discriminate|lia].
Qed.
Lemma Decodes_Byte b : Decodes decodeByte b [b].
Proof. intros rest; reflexivity. Qed.

Lemma Encodes_encC v : in_nat63 v -> Encodes (encC v) (encodeVarU64_str v).
Proof. apply Encodes_VarI64C. Qed.
Lemma Encodes_encS s : Encodes (encS s) (encodeString_str s).
Proof. apply Encodes_String. Qed.
Lemma Encodes_encF n v : Encodes (encF n v) (le_bytes n v).
Proof. apply Encodes_Fixed. Qed.

Lemma EncodesT_fold {A} (f : A -> encoder) (g : A -> list Z) l :
  (forall a, In a l -> EncodesT (f a) (g a)) ->
  EncodesT (fold_right (fun c E => enc_seq (f c) E) enc_nil l) (flat_map g l).
Proof.
  induction l as [|a l IH]; intros H; cbn [fold_right flat_map].
  - apply EncodesT_nil.
  - apply EncodesT_seq; [apply H; left; reflexivity|].
    apply IH; intros b Hb; apply H; right; exact Hb.
Qed.

(** Round trip of an encoder/decoder pair through a buffer. *)
Lemma codec_roundtrip {A} (E : encoder) (D : decoder A) a bs buf max off buf' off' :
  Encodes E bs -> Decodes D a bs -> 0 <= off -> max <= zlen buf ->
  E buf max off = Ret {| er_ok := true; er_buf := buf'; er_pos := off' |} ->
  forall max', off' <= max' <= zlen buf' ->
  decode_at D buf' off max' = Ret (Some (a, off')).
Proof.
  intros HE HD H0 Hs Er max' Hm.
  destruct (HE buf max off H0 Hs) as [r [Er' [Hok [Ht [_ Hp]]]]].
  rewrite Er in Er'; injection Er' as <-; cbn [er_ok er_buf er_pos] in *.
  destruct (Ht eq_refl) as [-> ->].
  symmetry in Hok; apply Z.leb_le in Hok.
  pose proof (zlen_nonneg bs).
  unfold decode_at, makeByteRange.
  destruct (Z.ltb_spec off 0); [lia|].
  destruct (Z.ltb_spec max' 0); [lia|].
  destruct (Z.ltb_spec max' off); [lia|].
  destruct (Z.ltb_spec (zlen (splice buf off bs)) max'); [lia|].
  cbn [obind].
  replace (max' - off) with (zlen bs + (max' - off - zlen bs)) by lia.
  rewrite slice_app_split by lia.
  rewrite slice_splice by lia.
  rewrite HD; cbn [obind]; unfold range_offset; rewrite zlen_app.
  do 3 f_equal; lia.
Qed.

(** An encoder never crashes nor leaves its region, and succeeds if it fits. *)
Lemma codec_fits (E : encoder) bs buf max off :
  Encodes E bs -> 0 <= off -> max <= zlen buf ->
  exists r, E buf max off = Ret r /\
    same_outside buf (er_buf r) off max /\
    (er_ok r = true <-> off + zlen bs <= max) /\
    (er_ok r = true -> er_pos r = off + zlen bs).
Proof.
  intros HE H0 Hs.
  destruct (HE buf max off H0 Hs) as [r [Er [Hok [Ht [Hf Hp]]]]].
  exists r; split; [exact Er|].
  split; [exact (Encodes_frame _ _ _ _ _ _ HE H0 Hs Er)|].
  split; [rewrite Hok, Z.leb_le; reflexivity|].
  intros E1; apply Ht in E1; tauto.
Qed.

(** ---- safety combinators ---- *)
Definition SafeDecW {A} (D : decoder A) (P : A -> Prop) : Prop :=
  forall br, bytes_ok br ->
  exists r, D br = Ret r /\
    forall v rest, r = Some (v, rest) -> P v /\ exists used, br = used ++ rest.

Lemma SafeDec_W {A} (D : decoder A) P : SafeDec D P -> SafeDecW D P.
Proof.
  intros H br Hb; destruct (H br Hb) as [r [Er Hr]]; exists r; split; [exact Er|].
  intros v rest E; destruct (Hr v rest E) as [Hp [u [_ Hu]]]; eauto.
Qed.

Lemma SafeDec_bind {A B} (D : decoder A) (f : A -> decoder B) P Q :
  SafeDec D P -> (forall a, P a -> SafeDecW (f a) Q) -> SafeDec (dbind D f) Q.
Proof.
  intros HD Hf br Hb; unfold dbind.
  destruct (HD br Hb) as [r [Er Hr]]; rewrite Er; cbn [obind].
  destruct r as [[a rest]|]; [|eexists; split; [reflexivity|discriminate]].
  destruct (Hr a rest eq_refl) as [Ha [u [Hu Hbr]]].
  subst br; apply bytes_ok_app in Hb; destruct Hb as [_ Hb].
  destruct (Hf a Ha rest Hb) as [r2 [Er2 Hr2]]; exists r2; split; [exact Er2|].
  intros v rest' E; destruct (Hr2 v rest' E) as [Hq [u2 Hu2]]; split; [exact Hq|].
  exists (u ++ u2); split; [|rewrite Hu2, app_assoc; reflexivity].
  intros En; apply app_eq_nil in En; tauto.
Qed.

Lemma SafeDecW_bind {A B} (D : decoder A) (f : A -> decoder B) P Q :
  SafeDecW D P -> (forall a, P a -> SafeDecW (f a) Q) -> SafeDecW (dbind D f) Q.
Proof.
  intros HD Hf br Hb; unfold dbind.
  destruct (HD br Hb) as [r [Er Hr]]; rewrite Er; cbn [obind].
  destruct r as [[a rest]|]; [|eexists; split; [reflexivity|discriminate]].
  destruct (Hr a rest eq_refl) as [Ha [u Hbr]].
  subst br; apply bytes_ok_app in Hb; destruct Hb as [_ Hb].
  destruct (Hf a Ha rest Hb) as [r2 [Er2 Hr2]]; exists r2; split; [exact Er2|].
  intros v rest' E; destruct (Hr2 v rest' E) as [Hq [u2 Hu2]]; split; [exact Hq|].
  exists (u ++ u2); rewrite Hu2, app_assoc; reflexivity.
Qed.

Lemma SafeDecW_ret {A} (a : A) (P : A -> Prop) : P a -> SafeDecW (dret a) P.
Proof.
  intros H br Hb; eexists; split; [reflexivity|].
  intros v rest E; injection E as <- <-; split; [exact H|].
  exists []; reflexivity.
Qed.
Lemma SafeDecW_fail {A} (P : A -> Prop) : SafeDecW dfail P.
Proof. intros br Hb; eexists; split; [reflexivity|discriminate]. Qed.
Lemma SafeDecW_weaken {A} (D : decoder A) (P Q : A -> Prop) :
  (forall a, P a -> Q a) -> SafeDecW D P -> SafeDecW D Q.
Proof.
  intros H S br Hb; destruct (S br Hb) as [r [Er Hr]]; exists r; split; [exact Er|].
  intros v rest E; destruct (Hr v rest E); auto.
Qed.

Lemma SafeDec_Byte : SafeDec decodeByte is_byte.
Proof.
  intros [|b br] Hb; (eexists; split; [reflexivity|]); intros v rest E; [discriminate|].
  injection E as <- <-; split; [inversion Hb; assumption|].
  exists [b]; split; [discriminate|reflexivity].
Qed.

Lemma SafeDecW_items {A} (D : decoder A) P : SafeDec D P ->
  forall fuel n br, bytes_ok br -> (length br < fuel)%nat ->
  exists r, dec_items fuel n D br = Ret r /\
    forall l rest, r = Some (l, rest) ->
      (Forall P l /\ zlen l = Z.max 0 n) /\ exists used, br = used ++ rest.
Proof.
  intros HD fuel; induction fuel as [|fuel IH]; intros n br Hb Hf; [lia|].
  cbn [dec_items]; destruct (Z.leb_spec n 0).
  - eexists; split; [reflexivity|]; intros l rest E; injection E as <- <-.
    split; [split; [constructor|change (zlen (@nil A)) with 0; lia]|exists []; reflexivity].
  - unfold dbind at 1; destruct (HD br Hb) as [r [Er Hr]]; rewrite Er; cbn [obind].
    destruct r as [[a rest]|]; [|eexists; split; [reflexivity|discriminate]].
    destruct (Hr a rest eq_refl) as [Ha [u [Hu Hbr]]].
    assert (Hlen : (length rest < length br)%nat).
    { rewrite Hbr, app_length; destruct u; [congruence|cbn [length]; lia]. }
    assert (Hbrest : bytes_ok rest).
    { rewrite Hbr in Hb; apply bytes_ok_app in Hb; tauto. }
    destruct (IH (n - 1) rest Hbrest) as [r2 [Er2 Hr2]]; [lia|].
    unfold dbind; rewrite Er2; cbn [obind].
    destruct r2 as [[l rest2]|]; [|eexists; split; [reflexivity|discriminate]].
    destruct (Hr2 l rest2 eq_refl) as [[Hl Hzl] [u2 Hu2]].
    eexists; split; [reflexivity|].
    intros l' rest' E; injection E as <- <-.
    split; [split; [constructor; assumption|rewrite zlen_cons; lia]|].
    exists (u ++ u2); rewrite Hbr, Hu2, app_assoc; reflexivity.
Qed.

Lemma SafeDecW_many {A} (D : decoder A) P n : SafeDec D P ->
  SafeDecW (dec_many n D) (fun l => Forall P l /\ zlen l = Z.max 0 n).
Proof. intros HD br Hb; apply (SafeDecW_items D P HD); [exact Hb|lia]. Qed.

Lemma Decodes_items {A} (D : decoder A) (g : A -> list Z) l :
  (forall a, In a l -> Decodes D a (g a)) ->
  forall fuel, (length l <= fuel)%nat ->
  Decodes (dec_items fuel (zlen l) D) l (flat_map g l).
Proof.
  induction l as [|a l IH]; intros H fuel Hf; cbn [flat_map].
  - destruct fuel; intros rest; reflexivity.
  - destruct fuel as [|fuel]; [cbn [length] in Hf; lia|].
    cbn [dec_items]; rewrite zlen_cons.
    destruct (Z.leb_spec (1 + zlen l) 0); [pose proof (zlen_nonneg l); lia|].
    replace (1 + zlen l - 1) with (zlen l) by lia.
    apply Decodes_bind with (a := a); [apply H; left; reflexivity|].
    rewrite <- (app_nil_r (flat_map g l)).
    apply Decodes_bind with (a := l); [|apply Decodes_ret].
    apply IH; [intros b Hb; apply H; right; exact Hb|cbn [length] in Hf; lia].
Qed.

Lemma Decodes_many {A} (D : decoder A) (g : A -> list Z) l :
  (forall a, In a l -> Decodes D a (g a)) -> (forall a, In a l -> g a <> []) ->
  Decodes (dec_many (zlen l) D) l (flat_map g l).
Proof.
  intros H Hne rest; unfold dec_many.
  apply Decodes_items; [exact H|].
  rewrite app_length.
  assert (length l <= length (flat_map g l))%nat; [|lia].
  clear H; induction l as [|a l IH]; cbn [flat_map length]; [lia|].
  rewrite app_length.
  assert (g a <> []) by (apply Hne; left; reflexivity).
  assert (length l <= length (flat_map g l))%nat
    by (apply IH; intros b Hb; apply Hne; right; exact Hb).
  destruct (g a); [congruence|cbn [length]; lia].
Qed.

Lemma encU64_ne v : 0 <= v -> encodeVarU64_str v <> [].
Proof.
  intros H E; pose proof (encodeVarU64_str_len v H) as Hl; rewrite E in Hl.
  change (zlen (@nil Z)) with 0 in Hl; lia.
Qed.

Ltac nat63 := match goal with
  | |- in_u64 _ => unfold in_u64, in_nat63, in_nat31 in *;
      change (2 ^ 64) with 18446744073709551616 in *;
      change (2 ^ 63) with 9223372036854775808 in *;
      change (2 ^ 31) with 2147483648 in *; lia
  | |- in_nat63 _ => unfold in_u64, in_nat63, in_nat31 in *;
      change (2 ^ 64) with 18446744073709551616 in *;
      change (2 ^ 63) with 9223372036854775808 in *;
      change (2 ^ 31) with 2147483648 in *; lia
  end.

(** ---- block header ---- *)


Definition header_bytes (v : Z) (b : block_details) : list Z :=
  encodeString_str (bd_fileName b) ++ encodeVarU64_str (bd_seqId b) ++
  encodeVarU64_str (bd_dataSize b) ++ encodeVarU64_str (bd_offset b) ++
  encodeVarU64_str (bd_fileSize b) ++
  (if 13 <=? v
   then [bd_alloc b] ++
        (if (bd_alloc b =? 3) || (bd_alloc b =? 2) then encodeVarU64_str (bd_prevSeqId b) else [])
   else []).

Lemma Encodes_Header v b : header_ok b ->
  forall buf max off, 0 <= max -> 0 <= off -> max <= zlen buf ->
  encodeHeader v b buf max off =
    enc_seq (encS (bd_fileName b))
   (enc_seq (encC (bd_seqId b))
   (enc_seq (encC (bd_dataSize b))
   (enc_seq (encC (bd_offset b))
   (enc_seq (encC (bd_fileSize b))
    (if HEADER_FLAG_AND_PREV_SEQ_ID_VERSION <=? v
     then enc_seq (encodeByte (bd_alloc b))
            (if (bd_alloc b =? EXISTS_TOO_SMALL) || (bd_alloc b =? EXISTS_TOO_LARGE)
             then encC (bd_prevSeqId b) else enc_nil)
     else enc_nil))))) buf max off.
Proof.
  intros _ buf max off Hm _ _; unfold encodeHeader.
  destruct (Z.ltb_spec max 0); [lia|reflexivity].
Qed.

(** With a non-negative limit (a negative one is a process abort). *)
Definition EncodesN (E : encoder) (bs : list Z) : Prop :=
  Encodes (fun buf max off => if max <? 0 then Ret {| er_ok := false; er_buf := buf; er_pos := off |}
                              else E buf max off) bs.

Lemma EncodesN_intro E bs :
  Encodes E bs -> EncodesN (fun buf max off => if max <? 0 then Crash else E buf max off) bs.
Proof.
  intros HE buf max off H0 Hs; pose proof (zlen_nonneg bs).
  destruct (Z.ltb_spec max 0).
  - eexists; split; [reflexivity|]; cbn [er_ok er_buf er_pos].
    destruct (Z.leb_spec (off + zlen bs) max); [lia|].
    split; [reflexivity|]; split; [discriminate|]; split; [|lia].
    intros _; apply same_outside_refl.
  - apply HE; assumption.
Qed.

Lemma EncodesN_Header v b : header_ok b -> EncodesN (encodeHeader v b) (header_bytes v b).
Proof.
  intros (Hn & Hs & Hf & Ho & Hd & Ha & Hp).
  unfold encodeHeader; apply EncodesN_intro; unfold header_bytes.
  apply Encodes_seqT; [apply Encodes_encS|].
  apply Encodes_T, Encodes_seqT; [apply Encodes_encC, Hs|].
  apply Encodes_T, Encodes_seqT; [apply Encodes_encC, Hd|].
  apply Encodes_T, Encodes_seqT; [apply Encodes_encC, Ho|].
  apply Encodes_T, Encodes_seqT; [apply Encodes_encC, Hf|].
  unfold HEADER_FLAG_AND_PREV_SEQ_ID_VERSION, EXISTS_TOO_SMALL, EXISTS_TOO_LARGE.
  destruct (13 <=? v); [|apply EncodesT_nil].
  apply Encodes_T, Encodes_seqT; [apply Encodes_Byte|].
  destruct ((bd_alloc b =? 3) || (bd_alloc b =? 2)); [|apply EncodesT_nil].
  apply Encodes_T, Encodes_encC, Hp.
Qed.

Lemma land7 a : 0 <= a < 8 -> Z.land a 7 = a.
Proof.
  intros H; change 7 with (Z.ones 3); rewrite Z.land_ones by lia; apply Z.mod_small.
  change (2 ^ 3) with 8; lia.
Qed.

Lemma Decodes_Header v b : header_ok b ->
  Decodes (decodeHeader v) (header_visible v b) (header_bytes v b).
Proof.
  intros (Hn & Hs & Hf & Ho & Hd & Ha & Hp).
  pose proof (zlen_nonneg (bd_fileName b)).
  unfold decodeHeader, header_bytes, header_visible.
  apply Decodes_bind with (a := bd_fileName b); [apply Decodes_String; nat63|].
  apply Decodes_bind with (a := bd_seqId b); [apply Decodes_Int64C, Hs|].
  apply Decodes_bind with (a := bd_dataSize b); [apply Decodes_Int64C, Hd|].
  apply Decodes_bind with (a := bd_offset b); [apply Decodes_Int64C, Ho|].
  rewrite <- app_nil_r.
  rewrite <- app_assoc.
  apply Decodes_bind with (a := bd_fileSize b); [apply Decodes_Int64C, Hf|].
  rewrite app_nil_r.
  unfold HEADER_FLAG_AND_PREV_SEQ_ID_VERSION, EXISTS_TOO_SMALL, EXISTS_TOO_LARGE, NOT_EXISTS.
  cbv zeta; destruct (13 <=? v); cbn [andb]; [|apply Decodes_ret].
  apply Decodes_bind with (a := bd_alloc b); [apply Decodes_Byte|].
  rewrite land7 by lia.
  rewrite (orb_comm (bd_alloc b =? 2)).
  destruct ((bd_alloc b =? 3) || (bd_alloc b =? 2)); [|apply Decodes_ret].
  rewrite <- (app_nil_r (encodeVarU64_str (bd_prevSeqId b))).
  apply Decodes_bind with (a := bd_prevSeqId b); [apply Decodes_Int64C, Hp|apply Decodes_ret].
Qed.

Lemma encC_len v : in_nat63 v -> 1 <= zlen (encodeVarU64_str v) <= 9.
Proof. intros H; apply encodeVarU64_str_len; unfold in_nat63 in H; lia. Qed.

Lemma encS_len s : zlen s <= 4096 -> zlen (encodeString_str s) <= 2 + zlen s.
Proof.
  intros H; unfold encodeString_str; rewrite zlen_app.
  pose proof (zlen_nonneg s).
  assert (zlen (encodeVarU64_str (zlen s)) <= 1 + Z.of_nat 1).
  { apply encU64_loop_small; [lia|].
    change (2 ^ (7 * (Z.of_nat 1 + 1))) with 16384; lia. }
  lia.
Qed.

Lemma header_bytes_len v b : header_ok b -> zlen (bd_fileName b) <= PATH_MAX ->
  zlen (header_bytes v b) <= kMaxHeader - 1.
Proof.
  intros (Hn & Hs & Hf & Ho & Hd & Ha & Hp) Hl; unfold header_bytes, PATH_MAX in *.
  pose proof (encS_len (bd_fileName b) Hl).
  pose proof (encC_len _ Hs); pose proof (encC_len _ Hf); pose proof (encC_len _ Ho).
  pose proof (encC_len _ Hd); pose proof (encC_len _ Hp).
  unfold kMaxHeader, PATH_MAX; rewrite !zlen_app.
  destruct (13 <=? v); [|change (zlen (@nil Z)) with 0; lia].
  rewrite zlen_app; change (zlen [bd_alloc b]) with 1.
  destruct ((bd_alloc b =? 3) || (bd_alloc b =? 2)); [lia|change (zlen (@nil Z)) with 0; lia].
Qed.

Lemma header_roundtrip v b buf max off buf' off' :
  header_ok b -> 0 <= off -> max <= zlen buf ->
  encodeHeader v b buf max off = Ret {| er_ok := true; er_buf := buf'; er_pos := off' |} ->
  forall max', off' <= max' <= zlen buf' ->
  decode_at (decodeHeader v) buf' off max' = Ret (Some (header_visible v b, off')).
Proof.
  intros Hb H0 Hs Er max' Hm.
  assert (Hmax : 0 <= max).
  { unfold encodeHeader in Er; destruct (Z.ltb_spec max 0); [discriminate|lia]. }
  eapply codec_roundtrip; [apply (EncodesN_Header v b Hb)|apply Decodes_Header, Hb|
    exact H0|exact Hs| |exact Hm].
  cbv beta; destruct (Z.ltb_spec max 0); [lia|exact Er].
Qed.

Lemma header_fits v b buf max off :
  header_ok b -> 0 <= off -> 0 <= max <= zlen buf ->
  exists r, encodeHeader v b buf max off = Ret r /\
    same_outside buf (er_buf r) off max /\
    (zlen (bd_fileName b) <= PATH_MAX -> off + (kMaxHeader - 1) <= max ->
     er_ok r = true /\ er_pos r - off <= kMaxHeader - 1).
Proof.
  intros Hb H0 Hs.
  destruct (codec_fits _ _ buf max off (EncodesN_Header v b Hb) H0) as [r [Er [Hso [Hok Hp]]]]; [lia|].
  cbv beta in Er; destruct (Z.ltb_spec max 0); [lia|].
  exists r; split; [exact Er|]; split; [exact Hso|].
  intros Hl Hroom; pose proof (header_bytes_len v b Hb Hl).
  assert (E : er_ok r = true) by (apply Hok; lia).
  split; [exact E|]; rewrite Hp by exact E; lia.
Qed.

Lemma SafeDec_Header v : SafeDec (decodeHeader v) (fun b =>
  bytes_ok (bd_fileName b) /\ in_nat63 (bd_seqId b) /\ in_nat63 (bd_dataSize b) /\
  in_nat63 (bd_offset b) /\ in_nat63 (bd_fileSize b) /\ 0 <= bd_alloc b < 8 /\
  in_nat63 (bd_prevSeqId b)).
Proof.
  unfold decodeHeader.
  apply SafeDec_bind with (P := bytes_ok); [apply SafeDec_String|intros name Hname].
  apply SafeDec_W, SafeDec_bind with (P := in_nat63); [apply SafeDec_Int64C|intros seqId H1].
  apply SafeDec_W, SafeDec_bind with (P := in_nat63); [apply SafeDec_Int64C|intros ds H2].
  apply SafeDec_W, SafeDec_bind with (P := in_nat63); [apply SafeDec_Int64C|intros o H3].
  apply SafeDec_W, SafeDec_bind with (P := in_nat63); [apply SafeDec_Int64C|intros fs H4].
  assert (H00 : in_nat63 0) by (unfold in_nat63; lia).
  destruct (HEADER_FLAG_AND_PREV_SEQ_ID_VERSION <=? v).
  - apply SafeDec_W, SafeDec_bind with (P := is_byte); [apply SafeDec_Byte|intros flags H5].
    assert (H6 : 0 <= Z.land flags 7 < 8).
    { unfold is_byte in H5; change 7 with (Z.ones 3); rewrite Z.land_ones by lia.
      change (2 ^ 3) with 8; lia. }
    cbv zeta; destruct ((Z.land flags 7 =? EXISTS_TOO_SMALL) || (Z.land flags 7 =? EXISTS_TOO_LARGE)).
    + apply SafeDec_W, SafeDec_bind with (P := in_nat63); [apply SafeDec_Int64C|intros p H7].
      apply SafeDecW_ret; cbn; auto 10.
    + apply SafeDecW_ret; cbn; auto 10.
  - apply SafeDecW_ret; cbn [bd_fileName bd_seqId bd_fileSize bd_offset bd_dataSize bd_alloc bd_prevSeqId].
    assert (0 <= NOT_EXISTS < 8) by (unfold NOT_EXISTS; lia); auto 10.
Qed.



Definition checkpoint_bytes (v : Z) (c : checkpoint) : list Z :=
  encodeVarU64_str (ck_port c) ++ encodeVarU64_str (ck_numBlocks c) ++
  (if 16 <=? v then encodeVarU64_str (ck_lastBlockReceivedBytes c) else []) ++
  (if 21 <=? v
   then encodeVarU64_str (ck_lastBlockSeqId c) ++ encodeVarU64_str (ck_lastBlockOffset c)
   else []).

Lemma Encodes_Checkpoint1 v c : checkpoint_ok c ->
  Encodes (encodeCheckpoint1 v c) (checkpoint_bytes v c).
Proof.
  intros (Hp & Hn & Hs & Ho & Hr); unfold encodeCheckpoint1, checkpoint_bytes.
  unfold CHECKPOINT_OFFSET_VERSION, CHECKPOINT_SEQ_ID_VERSION.
  apply Encodes_seqT; [apply Encodes_encC; nat63|].
  apply Encodes_T, Encodes_seqT; [apply Encodes_encC, Hn|].
  apply EncodesT_seq.
  - destruct (16 <=? v); [apply Encodes_T, Encodes_encC, Hr|apply EncodesT_nil].
  - destruct (21 <=? v); [|apply EncodesT_nil].
    apply EncodesT_seq; apply Encodes_T, Encodes_encC; assumption.
Qed.

Lemma Decodes_Checkpoint1 v c : checkpoint_ok c ->
  Decodes (decodeCheckpoint1 v) (checkpoint_visible v c) (checkpoint_bytes v c).
Proof.
  intros (Hp & Hn & Hs & Ho & Hr); unfold decodeCheckpoint1, checkpoint_bytes, checkpoint_visible.
  unfold CHECKPOINT_OFFSET_VERSION, CHECKPOINT_SEQ_ID_VERSION.
  apply Decodes_bind with (a := ck_port c); [apply Decodes_Int32C, Hp|].
  apply Decodes_bind with (a := ck_numBlocks c); [apply Decodes_Int64C, Hn|].
  apply Decodes_bind with (a := if 16 <=? v then ck_lastBlockReceivedBytes c else 0).
  { destruct (16 <=? v); [apply Decodes_Int64C, Hr|apply Decodes_ret]. }
  destruct (21 <=? v) eqn:E21; [|apply Decodes_ret].
  apply Decodes_bind with (a := ck_lastBlockSeqId c); [apply Decodes_UInt64; nat63|].
  rewrite <- (app_nil_l (encodeVarU64_str (ck_lastBlockOffset c))).
  apply Decodes_bind with (a := ck_lastBlockSeqId c).
  { intros rest; cbn [app]. unfold in_nat63 in Hs.
    assert (Hne : (ck_lastBlockSeqId c =? 2 ^ 64 - 1) = false).
    { apply Z.eqb_neq; change (2 ^ 64) with 18446744073709551616;
      change (2 ^ 63) with 9223372036854775808 in *; lia. }
    rewrite Hne, andb_false_r, s64_id by (unfold in_i64; lia); reflexivity. }
  rewrite <- (app_nil_r (encodeVarU64_str (ck_lastBlockOffset c))).
  apply Decodes_bind with (a := ck_lastBlockOffset c); [apply Decodes_Int64C, Ho|apply Decodes_ret].
Qed.

Definition checkpoints_bytes (v : Z) (cs : list checkpoint) : list Z :=
  encodeVarU64_str (zlen cs) ++ flat_map (checkpoint_bytes v) cs.

Lemma EncodesN_Checkpoints v cs : Forall checkpoint_ok cs ->
  EncodesN (encodeCheckpoints v cs) (checkpoints_bytes v cs).
Proof.
  intros H; unfold encodeCheckpoints; apply EncodesN_intro; unfold checkpoints_bytes.
  apply Encodes_seqT; [apply Encodes_VarU64, zlen_nonneg|].
  apply EncodesT_fold; intros c Hc.
  rewrite Forall_forall in H; apply Encodes_T, Encodes_Checkpoint1, H, Hc.
Qed.

Lemma checkpoint_bytes_ne v c : checkpoint_ok c -> checkpoint_bytes v c <> [].
Proof.
  intros (Hp & _) E; unfold checkpoint_bytes in E; apply app_eq_nil in E.
  apply (encU64_ne (ck_port c)); [unfold in_nat31 in Hp; lia|tauto].
Qed.

Lemma flat_map_map {A B C} (f : A -> B) (g : B -> list C) l :
  flat_map g (map f l) = flat_map (fun a => g (f a)) l.
Proof. induction l as [|a l IH]; cbn [map flat_map]; [reflexivity|rewrite IH; reflexivity]. Qed.

Lemma Decodes_items_map {A B} (D : decoder B) (h : A -> B) (g : A -> list Z) l :
  (forall a, In a l -> Decodes D (h a) (g a)) -> (forall a, In a l -> g a <> []) ->
  Decodes (dec_many (zlen l) D) (map h l) (flat_map g l).
Proof.
  intros H Hne rest; unfold dec_many.
  assert (Hfuel : forall fuel, (length l <= fuel)%nat ->
            Decodes (dec_items fuel (zlen l) D) (map h l) (flat_map g l)).
  { clear Hne rest; induction l as [|a l IH]; intros fuel Hf; cbn [flat_map map].
    - destruct fuel; intros rest; reflexivity.
    - destruct fuel as [|fuel]; [cbn [length] in Hf; lia|].
      cbn [dec_items]; rewrite zlen_cons.
      destruct (Z.leb_spec (1 + zlen l) 0); [pose proof (zlen_nonneg l); lia|].
      replace (1 + zlen l - 1) with (zlen l) by lia.
      apply Decodes_bind with (a := h a); [apply H; left; reflexivity|].
      rewrite <- (app_nil_r (flat_map g l)).
      apply Decodes_bind with (a := map h l); [|apply Decodes_ret].
      apply IH; [intros b Hb; apply H; right; exact Hb|cbn [length] in Hf; lia]. }
  apply Hfuel; rewrite app_length.
  assert (length l <= length (flat_map g l))%nat; [|lia].
  clear H Hfuel; induction l as [|a l IH]; cbn [flat_map length]; [lia|].
  rewrite app_length.
  assert (g a <> []) by (apply Hne; left; reflexivity).
  assert (length l <= length (flat_map g l))%nat
    by (apply IH; intros b Hb; apply Hne; right; exact Hb).
  destruct (g a); [congruence|cbn [length]; lia].
Qed.

Lemma Decodes_Checkpoints v cs : Forall checkpoint_ok cs -> zlen cs < 2 ^ 63 ->
  Decodes (decodeCheckpoints v) (map (checkpoint_visible v) cs) (checkpoints_bytes v cs).
Proof.
  intros H Hl; rewrite Forall_forall in H; unfold decodeCheckpoints, checkpoints_bytes.
  pose proof (zlen_nonneg cs).
  apply Decodes_bind with (a := zlen cs); [apply Decodes_UInt64; nat63|].
  apply Decodes_items_map; intros c Hc;
    [apply Decodes_Checkpoint1, H, Hc|apply checkpoint_bytes_ne, H, Hc].
Qed.

Lemma checkpoints_roundtrip v cs buf max off buf' off' :
  Forall checkpoint_ok cs -> zlen cs < 2 ^ 63 -> 0 <= off -> max <= zlen buf ->
  encodeCheckpoints v cs buf max off = Ret {| er_ok := true; er_buf := buf'; er_pos := off' |} ->
  forall max', off' <= max' <= zlen buf' ->
  decode_at (decodeCheckpoints v) buf' off max' = Ret (Some (map (checkpoint_visible v) cs, off')).
Proof.
  intros Hb Hl H0 Hs Er max' Hm.
  assert (Hmax : 0 <= max).
  { unfold encodeCheckpoints in Er; destruct (Z.ltb_spec max 0); [discriminate|lia]. }
  eapply codec_roundtrip; [apply (EncodesN_Checkpoints v cs Hb)|apply Decodes_Checkpoints; assumption|
    exact H0|exact Hs| |exact Hm].
  cbv beta; destruct (Z.ltb_spec max 0); [lia|exact Er].
Qed.

Lemma checkpoint_bytes_len v c : checkpoint_ok c ->
  zlen (checkpoint_bytes v c) <=
  18 + (if 16 <=? v then 9 else 0) + (if 21 <=? v then 18 else 0).
Proof.
  intros (Hp & Hn & Hs & Ho & Hr); unfold checkpoint_bytes; rewrite !zlen_app.
  assert (Hp' : in_nat63 (ck_port c)) by nat63.
  pose proof (encC_len _ Hp'); pose proof (encC_len _ Hn); pose proof (encC_len _ Hs).
  pose proof (encC_len _ Ho); pose proof (encC_len _ Hr).
  destruct (16 <=? v), (21 <=? v); rewrite ?zlen_app; change (zlen (@nil Z)) with 0; lia.
Qed.

(** One local checkpoint fits the length reserved for it. *)
Lemma local_checkpoint_len v c : checkpoint_ok c ->
  zlen (checkpoints_bytes v [c]) <= getMaxLocalCheckpointLength v.
Proof.
  intros Hc; unfold checkpoints_bytes, getMaxLocalCheckpointLength.
  unfold CHECKPOINT_OFFSET_VERSION, CHECKPOINT_SEQ_ID_VERSION.
  cbn [flat_map]; rewrite app_nil_r, zlen_app.
  pose proof (checkpoint_bytes_len v c Hc).
  change (zlen (encodeVarU64_str (zlen [c]))) with 1.
  destruct (16 <=? v), (21 <=? v); lia.
Qed.

(** The pre-1.27 encoding of an invalid sequence id (-1): nine 0xff bytes and a
    0x01 byte. *)
Definition old_minus_one : list Z := [255; 255; 255; 255; 255; 255; 255; 255; 255; 1].

Lemma old_checkpoint_decodes v port numBlocks recv off :
  21 <= v < 27 -> in_nat31 port -> in_nat63 numBlocks -> in_nat63 recv -> in_nat63 off ->
  forall rest,
  decodeCheckpoints v
    (1 :: encodeVarU64_str port ++ encodeVarU64_str numBlocks ++ encodeVarU64_str recv
       ++ old_minus_one ++ encodeVarU64_str off ++ rest)
  = Ret (Some ([{| ck_port := port; ck_numBlocks := numBlocks; ck_lastBlockSeqId := -1;
                   ck_lastBlockOffset := off; ck_lastBlockReceivedBytes := recv;
                   ck_hasSeqId := true |}], rest)).
Proof.
  intros Hv Hp Hn Hr Ho rest.
  assert (Hd : Decodes (decodeCheckpoint1 v)
     {| ck_port := port; ck_numBlocks := numBlocks; ck_lastBlockSeqId := -1;
        ck_lastBlockOffset := off; ck_lastBlockReceivedBytes := recv; ck_hasSeqId := true |}
     (encodeVarU64_str port ++ encodeVarU64_str numBlocks ++ encodeVarU64_str recv
       ++ encodeVarU64_str (2 ^ 64 - 1) ++ [1] ++ encodeVarU64_str off)).
  { unfold decodeCheckpoint1, CHECKPOINT_OFFSET_VERSION, CHECKPOINT_SEQ_ID_VERSION, VARINT_CHANGE.
    apply Decodes_bind with (a := port); [apply Decodes_Int32C, Hp|].
    apply Decodes_bind with (a := numBlocks); [apply Decodes_Int64C, Hn|].
    destruct (Z.leb_spec 16 v); [|lia].
    apply Decodes_bind with (a := recv); [apply Decodes_Int64C, Hr|].
    destruct (Z.leb_spec 21 v); [|lia].
    apply Decodes_bind with (a := 2 ^ 64 - 1); [apply Decodes_UInt64; unfold in_u64; lia|].
    apply Decodes_bind with (a := -1).
    { intros r; destruct (Z.ltb_spec v 27); [|lia]; rewrite Z.eqb_refl; reflexivity. }
    rewrite <- (app_nil_r (encodeVarU64_str off)).
    apply Decodes_bind with (a := off); [apply Decodes_Int64C, Ho|apply Decodes_ret]. }
  unfold decodeCheckpoints, dbind at 1.
  assert (H1 : forall x, decodeUInt64 (1 :: x) = Ret (Some (1, x))).
  { intros x; apply (Decodes_UInt64 1); unfold in_u64; lia. }
  rewrite H1; cbn [obind]. unfold dec_many.
  cbn [dec_items]. change (1 <=? 0) with false; cbv iota.
  unfold dbind at 1.
  replace (encodeVarU64_str port ++ encodeVarU64_str numBlocks ++ encodeVarU64_str recv
             ++ old_minus_one ++ encodeVarU64_str off ++ rest)
    with ((encodeVarU64_str port ++ encodeVarU64_str numBlocks ++ encodeVarU64_str recv
             ++ encodeVarU64_str (2 ^ 64 - 1) ++ [1] ++ encodeVarU64_str off) ++ rest).
  2:{ rewrite <- !app_assoc; reflexivity. }
  rewrite Hd; cbn [obind]. change (1 - 1) with 0.
  destruct (length _); reflexivity.
Qed.

Lemma SafeDec_Checkpoint1 v : SafeDec (decodeCheckpoint1 v) (fun c =>
  in_nat31 (ck_port c) /\ in_nat63 (ck_numBlocks c) /\ in_i64 (ck_lastBlockSeqId c) /\
  in_nat63 (ck_lastBlockOffset c) /\ in_nat63 (ck_lastBlockReceivedBytes c)).
Proof.
  assert (H00 : in_nat63 0) by (unfold in_nat63; lia).
  unfold decodeCheckpoint1.
  apply SafeDec_bind with (P := in_nat31); [apply SafeDec_Int32C|intros port Hp].
  apply SafeDec_W, SafeDec_bind with (P := in_nat63); [apply SafeDec_Int64C|intros nb Hn].
  apply SafeDecW_bind with (P := in_nat63).
  { destruct (CHECKPOINT_OFFSET_VERSION <=? v);
      [apply SafeDec_W, SafeDec_Int64C|apply SafeDecW_ret, H00]. }
  intros recv Hr; destruct (CHECKPOINT_SEQ_ID_VERSION <=? v).
  - apply SafeDec_W, SafeDec_bind with (P := in_u64); [apply SafeDec_UInt64|intros uv Hu].
    assert (Hs64 : in_i64 (s64 uv)).
    { unfold in_i64, s64, in_u64 in *; rewrite Z.mod_small by lia.
      change (2 ^ 64) with 18446744073709551616 in *.
      change (2 ^ 63) with 9223372036854775808 in *.
      cbv zeta; destruct (Z.ltb_spec uv 9223372036854775808); lia. }
    apply SafeDecW_bind with (P := in_i64).
    { intros br Hb; destruct ((v <? VARINT_CHANGE) && (uv =? 2 ^ 64 - 1)).
      - destruct br as [|b br].
        + eexists; split; [reflexivity|]; intros x rest E; injection E as <- <-.
          split; [exact Hs64|exists []; reflexivity].
        + destruct (b =? 1).
          * eexists; split; [reflexivity|]; intros x rest E; injection E as <- <-.
            split; [unfold in_i64; lia|exists [b]; reflexivity].
          * eexists; split; [reflexivity|discriminate].
      - eexists; split; [reflexivity|]; intros x rest E; injection E as <- <-.
        split; [exact Hs64|exists []; reflexivity]. }
    intros seqId Hs.
    apply SafeDec_W, SafeDec_bind with (P := in_nat63); [apply SafeDec_Int64C|intros o Ho].
    apply SafeDecW_ret; cbn; auto.
  - apply SafeDecW_ret; cbn [ck_port ck_numBlocks ck_lastBlockSeqId ck_lastBlockOffset
      ck_lastBlockReceivedBytes].
    assert (in_i64 0) by (unfold in_i64; lia); auto 10.
Qed.

Lemma SafeDec_Checkpoints v : SafeDec (decodeCheckpoints v) (fun cs => Forall (fun c =>
  in_nat31 (ck_port c) /\ in_nat63 (ck_numBlocks c) /\ in_i64 (ck_lastBlockSeqId c) /\
  in_nat63 (ck_lastBlockOffset c) /\ in_nat63 (ck_lastBlockReceivedBytes c)) cs).
Proof.
  unfold decodeCheckpoints; apply SafeDec_bind with (P := in_u64); [apply SafeDec_UInt64|].
  intros len _; eapply SafeDecW_weaken; [|apply SafeDecW_many, SafeDec_Checkpoint1].
  intros l [H _]; exact H.
Qed.

(** ---- done, size, footer ---- *)
Definition done_bytes (v n b : Z) : list Z :=
  encodeVarU64_str n ++ (if 16 <=? v then encodeVarU64_str b else []).
Lemma Encodes_Done v n b : in_nat63 n -> in_nat63 b -> Encodes (encodeDone v n b) (done_bytes v n b).
Proof.
  intros Hn Hb; unfold encodeDone, done_bytes, CHECKPOINT_OFFSET_VERSION.
  apply Encodes_seqT; [apply Encodes_encC, Hn|].
  destruct (16 <=? v); [apply Encodes_T, Encodes_encC, Hb|apply EncodesT_nil].
Qed.
Lemma Decodes_Done v n b b0 : in_nat63 n -> in_nat63 b ->
  Decodes (decodeDone v b0) (n, if 16 <=? v then b else b0) (done_bytes v n b).
Proof.
  intros Hn Hb; unfold decodeDone, done_bytes, CHECKPOINT_OFFSET_VERSION.
  apply Decodes_bind with (a := n); [apply Decodes_Int64C, Hn|].
  destruct (16 <=? v); [|apply Decodes_ret].
  rewrite <- (app_nil_r (encodeVarU64_str b)).
  apply Decodes_bind with (a := b); [apply Decodes_Int64C, Hb|apply Decodes_ret].
Qed.
Lemma done_roundtrip v n b b0 buf max off buf' off' :
  in_nat63 n -> in_nat63 b -> 0 <= off -> max <= zlen buf ->
  encodeDone v n b buf max off = Ret {| er_ok := true; er_buf := buf'; er_pos := off' |} ->
  forall max', off' <= max' <= zlen buf' ->
  decode_at (decodeDone v b0) buf' off max' = Ret (Some ((n, if 16 <=? v then b else b0), off')).
Proof.
  intros Hn Hb H0 Hs Er.
  exact (codec_roundtrip _ _ _ _ _ _ _ _ _ (Encodes_Done v n b Hn Hb)
           (Decodes_Done v n b b0 Hn Hb) H0 Hs Er).
Qed.
Lemma done_fits v n b buf max off :
  in_nat63 n -> in_nat63 b -> 0 <= off -> max <= zlen buf -> off + (kMaxDone - 2) <= max ->
  exists buf' off', encodeDone v n b buf max off
    = Ret {| er_ok := true; er_buf := buf'; er_pos := off' |} /\ off' <= off + (kMaxDone - 2).
Proof.
  intros Hn Hb H0 Hs Hroom.
  destruct (codec_fits _ _ buf max off (Encodes_Done v n b Hn Hb) H0 Hs) as [r [Er [_ [Hok Hp]]]].
  assert (Hl : zlen (done_bytes v n b) <= 18).
  { unfold done_bytes; rewrite zlen_app; pose proof (encC_len _ Hn); pose proof (encC_len _ Hb).
    destruct (16 <=? v); [lia|change (zlen (@nil Z)) with 0; lia]. }
  unfold kMaxDone in *.
  assert (E : er_ok r = true) by (apply Hok; lia).
  destruct r as [ok b' p']; cbn [er_ok er_buf er_pos] in *; subst ok.
  exists b', p'; split; [exact Er|]; rewrite Hp by reflexivity; lia.
Qed.

Lemma size_roundtrip n buf max off buf' off' :
  in_nat63 n -> 0 <= off -> max <= zlen buf ->
  encodeSize n buf max off = Ret {| er_ok := true; er_buf := buf'; er_pos := off' |} ->
  forall max', off' <= max' <= zlen buf' ->
  decode_at decodeSize buf' off max' = Ret (Some (n, off')).
Proof.
  intros Hn H0 Hs Er.
  exact (codec_roundtrip _ _ _ _ _ _ _ _ _ (Encodes_encC n Hn) (Decodes_Int64C n Hn) H0 Hs Er).
Qed.
Lemma footer_roundtrip n buf max off buf' off' :
  in_i32 n -> 0 <= off -> max <= zlen buf ->
  encodeFooter n buf max off = Ret {| er_ok := true; er_buf := buf'; er_pos := off' |} ->
  forall max', off' <= max' <= zlen buf' ->
  decode_at decodeFooter buf' off max' = Ret (Some (n, off')).
Proof.
  intros Hn H0 Hs Er.
  assert (Hn' : in_i64 n).
  { unfold in_i64, in_i32 in *; change (2 ^ 31) with 2147483648 in *.
    change (2 ^ 63) with 9223372036854775808 in *; lia. }
  exact (codec_roundtrip _ _ _ _ _ _ _ _ _ (Encodes_VarI64 n Hn') (Decodes_Int32 n Hn) H0 Hs Er).
Qed.

(** ---- abort ---- *)
Definition abort_bytes (v e c : Z) : list Z := le_bytes 4 v ++ [e mod 256] ++ le_bytes 8 c.
Lemma Encodes_Abort v e c : Encodes (encodeAbort v e c) (abort_bytes v e c).
Proof.
  intros buf max off H0 Hs; unfold encodeAbort, kAbortLength.
  assert (Hl : zlen (abort_bytes v e c) = 13).
  { unfold abort_bytes, zlen; rewrite !app_length, !le_bytes_len; reflexivity. }
  destruct (Z.ltb_spec max (off + (4 + 1 + 8))).
  - eexists; split; [reflexivity|]; cbn [er_ok er_buf er_pos].
    rewrite Hl; destruct (Z.leb_spec (off + 13) max); [lia|].
    split; [reflexivity|]; split; [discriminate|]; split; [|lia].
    intros _; apply same_outside_refl.
  - pose proof (Encodes_seqT _ _ _ _ (Encodes_encF 4 v)
      (Encodes_T _ _ (Encodes_seqT _ _ _ _ (Encodes_Byte (e mod 256))
         (Encodes_T _ _ (Encodes_encF 8 c))))) as HE.
    destruct (HE buf max off H0 Hs) as [r [Er Hr]].
    exists r; split; [|exact Hr].
    rewrite <- Er; unfold enc_seq.
    destruct (Encodes_encF 4 v buf max off H0 Hs) as [r1 [Er1 [Hok1 [Ht1 _]]]].
    rewrite Er1; cbn [obind].
    assert (Hl4 : zlen (le_bytes 4 v) = 4) by (unfold zlen; rewrite le_bytes_len; reflexivity).
    rewrite Hl4 in *.
    destruct (Z.leb_spec (off + 4) max); [|lia].
    rewrite Hok1; destruct (Ht1 Hok1) as [_ Hp1].
    rewrite Hp1; unfold encodeByte.
    destruct (Z.leb_spec max (off + 4)); [lia|]; reflexivity.
Qed.
Lemma Decodes_Abort v e c : in_nat31 v -> is_byte e -> in_nat63 c ->
  Decodes decodeAbort_body (v, e, c) (abort_bytes v e c).
Proof.
  unfold in_nat31, in_nat63, is_byte; intros Hv He Hc; unfold decodeAbort_body, abort_bytes.
  apply Decodes_bind with (a := v); [apply Decodes_Fixed; [lia|exact Hv]|].
  rewrite (Z.mod_small e) by lia.
  apply Decodes_bind with (a := e); [intros rest; reflexivity|].
  rewrite <- (app_nil_r (le_bytes 8 c)).
  apply Decodes_bind with (a := c); [apply Decodes_Fixed; [lia|exact Hc]|apply Decodes_ret].
Qed.
Lemma abort_roundtrip v e c buf max off :
  in_nat31 v -> is_byte e -> in_nat63 c -> 0 <= off -> max <= zlen buf ->
  off + kAbortLength <= max ->
  exists buf', encodeAbort v e c buf max off
      = Ret {| er_ok := true; er_buf := buf'; er_pos := off + kAbortLength |} /\
    forall max', off + kAbortLength <= max' <= zlen buf' ->
      decodeAbort buf' off max' = Ret (Some (v, e, c, off + kAbortLength)).
Proof.
  intros Hv He Hc H0 Hs Hroom.
  assert (Hl : zlen (abort_bytes v e c) = 13).
  { unfold abort_bytes, zlen; rewrite !app_length, !le_bytes_len; reflexivity. }
  destruct (codec_fits _ _ buf max off (Encodes_Abort v e c) H0 Hs) as [r [Er [_ [Hok Hp]]]].
  unfold kAbortLength in *; rewrite Hl in *.
  assert (E : er_ok r = true) by (apply Hok; lia).
  destruct r as [ok b' p']; cbn [er_ok er_buf er_pos] in *; subst ok.
  specialize (Hp eq_refl); subst p'.
  exists b'; split; [exact Er|].
  intros max' Hm; unfold decodeAbort, kAbortLength.
  destruct (Z.ltb_spec max' (off + (4 + 1 + 8))); [lia|].
  exact (codec_roundtrip _ _ _ _ _ _ _ _ _ (Encodes_Abort v e c) (Decodes_Abort v e c Hv He Hc)
           H0 Hs Er max' Hm).
Qed.

(** ---- chunks command ---- *)
Lemma Encodes_ChunksCmd a b : Encodes (encodeChunksCmd a b) (le_bytes 8 a ++ le_bytes 8 b).
Proof. apply Encodes_seqT; [apply Encodes_encF|apply Encodes_T, Encodes_encF]. Qed.
Lemma Decodes_ChunksCmd a b : in_nat63 a -> in_nat63 b ->
  Decodes decodeChunksCmd (a, b) (le_bytes 8 a ++ le_bytes 8 b).
Proof.
  unfold in_nat63; intros Ha Hb; unfold decodeChunksCmd.
  apply Decodes_bind with (a := a); [apply Decodes_Fixed; [lia|exact Ha]|].
  rewrite <- (app_nil_r (le_bytes 8 b)).
  apply Decodes_bind with (a := b); [apply Decodes_Fixed; [lia|exact Hb]|apply Decodes_ret].
Qed.
Lemma chunkscmd_roundtrip a b buf max off :
  in_nat63 a -> in_nat63 b -> 0 <= off -> max <= zlen buf -> off + kChunksCmdLen <= max ->
  exists buf', encodeChunksCmd a b buf max off
      = Ret {| er_ok := true; er_buf := buf'; er_pos := off + kChunksCmdLen |} /\
    forall max', off + kChunksCmdLen <= max' <= zlen buf' ->
      decode_at decodeChunksCmd buf' off max' = Ret (Some ((a, b), off + kChunksCmdLen)).
Proof.
  intros Ha Hb H0 Hs Hroom; unfold kChunksCmdLen in *.
  assert (Hl : zlen (le_bytes 8 a ++ le_bytes 8 b) = 16).
  { unfold zlen; rewrite !app_length, !le_bytes_len; reflexivity. }
  destruct (codec_fits _ _ buf max off (Encodes_ChunksCmd a b) H0 Hs) as [r [Er [_ [Hok Hp]]]].
  rewrite Hl in *.
  assert (E : er_ok r = true) by (apply Hok; lia).
  destruct r as [ok b' p']; cbn [er_ok er_buf er_pos] in *; subst ok.
  specialize (Hp eq_refl); subst p'.
  exists b'; split; [exact Er|].
  intros max' Hm.
  exact (codec_roundtrip _ _ _ _ _ _ _ _ _ (Encodes_ChunksCmd a b) (Decodes_ChunksCmd a b Ha Hb)
           H0 Hs Er max' Hm).
Qed.


Definition settings_body_bytes (v : Z) (s : settings) : list Z :=
  encodeVarU64_str (st_readTimeoutMillis s) ++ encodeVarU64_str (st_writeTimeoutMillis s) ++
  encodeString_str (st_transferId s) ++ (if 12 <=? v then [settings_flags s] else []).
Definition settings_bytes (v : Z) (s : settings) : list Z :=
  encodeVarU64_str v ++ settings_body_bytes v s.

Lemma Encodes_Settings v s : in_nat31 v -> settings_ok s ->
  Encodes (encodeSettings v s) (settings_bytes v s).
Proof.
  intros Hv (Hr & Hw & Hi); unfold encodeSettings, settings_bytes, settings_body_bytes.
  apply Encodes_seqT; [apply Encodes_encC; nat63|].
  apply Encodes_T, Encodes_seqT; [apply Encodes_encC; nat63|].
  apply Encodes_T, Encodes_seqT; [apply Encodes_encC; nat63|].
  apply Encodes_T, Encodes_seqT; [apply Encodes_encS|].
  unfold SETTINGS_FLAG_VERSION.
  destruct (12 <=? v); [apply Encodes_T, Encodes_Byte|apply EncodesT_nil].
Qed.
Lemma Decodes_SettingsBody v s : settings_ok s ->
  Decodes (decodeSettings_body v) (settings_visible v s) (settings_body_bytes v s).
Proof.
  intros (Hr & Hw & Hi); unfold decodeSettings_body, settings_visible, settings_body_bytes.
  pose proof (zlen_nonneg (st_transferId s)).
  apply Decodes_bind with (a := st_readTimeoutMillis s); [apply Decodes_Int32C, Hr|].
  apply Decodes_bind with (a := st_writeTimeoutMillis s); [apply Decodes_Int32C, Hw|].
  apply Decodes_bind with (a := st_transferId s); [apply Decodes_String; nat63|].
  unfold SETTINGS_FLAG_VERSION; cbv zeta; destruct (12 <=? v); cbn [andb]; [|apply Decodes_ret].
  rewrite <- (app_nil_r [settings_flags s]).
  apply Decodes_bind with (a := settings_flags s); [apply Decodes_Byte|].
  replace (Z.testbit (settings_flags s) 0) with (st_enableChecksum s).
  replace (Z.testbit (settings_flags s) 1) with (st_sendFileChunks s).
  replace (Z.testbit (settings_flags s) 2) with (st_blockModeDisabled s).
  replace (Z.testbit (settings_flags s) 3) with (st_enableHeartBeat s).
  { apply Decodes_ret. }
  all: unfold settings_flags;
    destruct (st_enableChecksum s), (st_sendFileChunks s), (st_blockModeDisabled s),
             (st_enableHeartBeat s); reflexivity.
Qed.

(** The receiver first decodes the version and then, at the same limit, the
    settings with the negotiated version [v'] (ReceiverThread.cpp:292-314). *)
Lemma settings_roundtrip v s buf max off buf' off' :
  in_nat31 v -> settings_ok s -> 0 <= off -> max <= zlen buf ->
  encodeSettings v s buf max off = Ret {| er_ok := true; er_buf := buf'; er_pos := off' |} ->
  forall max', off' <= max' <= zlen buf' ->
  exists off1,
    decode_at decodeVersion buf' off max' = Ret (Some (v, off1)) /\
    decodeSettings v buf' off1 max' = Ret (Some (settings_visible v s, off')).
Proof.
  intros Hv Hok H0 Hs Er max' Hm.
  destruct (Encodes_Settings v s Hv Hok buf max off H0 Hs) as [r [Er' [Hk [Ht [_ Hp]]]]].
  rewrite Er in Er'; injection Er' as <-; cbn [er_ok er_buf er_pos] in *.
  destruct (Ht eq_refl) as [-> ->].
  symmetry in Hk; apply Z.leb_le in Hk.
  assert (Hvr : in_nat63 v) by nat63.
  pose proof (encC_len v Hvr) as Hlv.
  unfold settings_bytes in *; rewrite zlen_app in *.
  set (vb := encodeVarU64_str v) in *; set (sb := settings_body_bytes v s) in *.
  assert (Hsb : 1 <= zlen sb).
  { subst sb; unfold settings_body_bytes; rewrite zlen_app.
    destruct Hok as [Hr _].
    assert (Hr' : in_nat63 (st_readTimeoutMillis s)) by nat63.
    pose proof (encC_len _ Hr'); pose proof (zlen_nonneg
      (encodeVarU64_str (st_writeTimeoutMillis s) ++ encodeString_str (st_transferId s)
         ++ (if 12 <=? v then [settings_flags s] else []))); lia. }
  exists (off + zlen vb).
  rewrite zlen_splice in Hm by (rewrite ?zlen_app; lia).
  assert (Hsl : slice (splice buf off (vb ++ sb)) off (max' - off)
                = vb ++ sb ++ slice (splice buf off (vb ++ sb)) (off + zlen vb + zlen sb)
                                    (max' - off - zlen vb - zlen sb)).
  { replace (max' - off) with (zlen (vb ++ sb) + (max' - off - zlen vb - zlen sb))
      at 1 by (rewrite zlen_app; lia).
    rewrite slice_app_split by (rewrite ?zlen_app; lia).
    rewrite slice_splice by (rewrite ?zlen_app; lia).
    rewrite <- app_assoc, zlen_app, Z.add_assoc; reflexivity. }
  split.
  - unfold decode_at, makeByteRange.
    destruct (Z.ltb_spec off 0); [lia|].
    destruct (Z.ltb_spec max' 0); [lia|].
    destruct (Z.ltb_spec max' off); [lia|].
    rewrite zlen_splice by (rewrite ?zlen_app; lia).
    destruct (Z.ltb_spec (zlen buf) max'); [lia|].
    cbn [obind]; rewrite Hsl.
    unfold decodeVersion; subst vb; rewrite Decodes_Int32C by exact Hv.
    cbn [obind]; unfold range_offset; rewrite !zlen_app; do 3 f_equal; lia.
  - unfold decodeSettings.
    destruct (Z.ltb_spec (off + zlen vb) 0); [lia|].
    destruct (Z.leb_spec max' (off + zlen vb)); [lia|].
    unfold decode_at, makeByteRange.
    destruct (Z.ltb_spec (off + zlen vb) 0); [lia|].
    destruct (Z.ltb_spec max' 0); [lia|].
    destruct (Z.ltb_spec max' (off + zlen vb)); [lia|].
    rewrite zlen_splice by (rewrite ?zlen_app; lia).
    destruct (Z.ltb_spec (zlen buf) max'); [lia|].
    cbn [obind].
    assert (Hsl2 : slice (splice buf off (vb ++ sb)) (off + zlen vb) (max' - (off + zlen vb))
      = sb ++ slice (splice buf off (vb ++ sb)) (off + zlen vb + zlen sb)
                    (max' - off - zlen vb - zlen sb)).
    { replace (max' - (off + zlen vb)) with (zlen sb + (max' - off - zlen vb - zlen sb)) by lia.
      rewrite slice_app_split by lia. f_equal.
      rewrite <- (splice_app buf off vb sb) by (rewrite ?zlen_app; lia).
      apply slice_splice; rewrite ?zlen_splice; lia. }
    rewrite Hsl2.
    subst sb; rewrite Decodes_SettingsBody by exact Hok.
    cbn [obind]; unfold range_offset; rewrite !zlen_app; do 3 f_equal; lia.
Qed.

Lemma settings_bytes_len v s : in_nat31 v -> settings_ok s ->
  zlen (st_transferId s) <= kMaxTransferIdLength ->
  zlen (settings_bytes v s) <= kMaxSettings - 1.
Proof.
  intros Hv (Hr & Hw & Hi) Hl; unfold settings_bytes, settings_body_bytes, kMaxSettings.
  unfold kMaxTransferIdLength in *.
  assert (Hv' : in_nat63 v) by nat63.
  assert (Hr' : in_nat63 (st_readTimeoutMillis s)) by nat63.
  assert (Hw' : in_nat63 (st_writeTimeoutMillis s)) by nat63.
  pose proof (encC_len _ Hv'); pose proof (encC_len _ Hr'); pose proof (encC_len _ Hw').
  assert (zlen (encodeString_str (st_transferId s)) <= 2 + zlen (st_transferId s))
    by (apply encS_len; lia).
  rewrite !zlen_app; destruct (12 <=? v).
  - change (zlen [settings_flags s]) with 1; lia.
  - change (zlen (@nil Z)) with 0; lia.
Qed.

Lemma settings_fits v s buf max off :
  in_nat31 v -> settings_ok s -> zlen (st_transferId s) <= kMaxTransferIdLength ->
  0 <= off -> max <= zlen buf -> off + (kMaxSettings - 1) <= max ->
  exists buf' off', encodeSettings v s buf max off
    = Ret {| er_ok := true; er_buf := buf'; er_pos := off' |} /\
    off' <= off + (kMaxSettings - 1).
Proof.
  intros Hv Hok Hl H0 Hs Hroom.
  destruct (codec_fits _ _ buf max off (Encodes_Settings v s Hv Hok) H0 Hs) as [r [Er [_ [Hk Hp]]]].
  pose proof (settings_bytes_len v s Hv Hok Hl).
  assert (E : er_ok r = true) by (apply Hk; lia).
  destruct r as [ok b' p']; cbn [er_ok er_buf er_pos] in *; subst ok.
  exists b', p'; split; [exact Er|]; rewrite Hp by reflexivity; lia.
Qed.

(** ---- encryption settings ---- *)
Definition enc_settings_bytes (ty : Z) (iv : list Z) (tag : Z) : list Z :=
  encodeVarU64_str ty ++ encodeString_str iv ++ le_bytes 4 tag.
Lemma Encodes_EncSettings ty iv tag : in_nat63 ty ->
  Encodes (encodeEncryptionSettings ty iv tag) (enc_settings_bytes ty iv tag).
Proof.
  intros Ht; unfold encodeEncryptionSettings, enc_settings_bytes.
  apply Encodes_seqT; [apply Encodes_encC, Ht|].
  apply Encodes_T, Encodes_seqT; [apply Encodes_encS|apply Encodes_T, Encodes_encF].
Qed.
Lemma Decodes_EncSettings ty iv tag : in_nat63 ty -> zlen iv < 2 ^ 63 -> in_nat31 tag ->
  Decodes decodeEncryptionSettings (ty, iv, tag) (enc_settings_bytes ty iv tag).
Proof.
  intros Ht Hi Htag; unfold decodeEncryptionSettings, enc_settings_bytes.
  pose proof (zlen_nonneg iv).
  apply Decodes_bind with (a := ty); [apply Decodes_Int64C, Ht|].
  apply Decodes_bind with (a := iv); [apply Decodes_String; nat63|].
  rewrite <- (app_nil_r (le_bytes 4 tag)).
  apply Decodes_bind with (a := tag); [apply Decodes_Fixed; [lia|exact Htag]|apply Decodes_ret].
Qed.
Lemma enc_settings_roundtrip ty iv tag buf max off :
  0 <= ty <= 3 -> zlen iv = kAESBlockSize -> in_nat31 tag ->
  0 <= off -> max <= zlen buf -> off + (kEncryptionCmdLen - 1) <= max ->
  exists buf', encodeEncryptionSettings ty iv tag buf max off
      = Ret {| er_ok := true; er_buf := buf'; er_pos := off + (kEncryptionCmdLen - 1) |} /\
    forall max', off + (kEncryptionCmdLen - 1) <= max' <= zlen buf' ->
      decode_at decodeEncryptionSettings buf' off max'
      = Ret (Some ((ty, iv, tag), off + (kEncryptionCmdLen - 1))).
Proof.
  intros Ht Hiv Htag H0 Hs Hroom; unfold kEncryptionCmdLen, kAESBlockSize in *.
  assert (Hty : in_nat63 ty) by (unfold in_nat63; change (2 ^ 63) with 9223372036854775808; lia).
  assert (Hi : zlen iv < 2 ^ 63) by (change (2 ^ 63) with 9223372036854775808; lia).
  assert (Hl : zlen (enc_settings_bytes ty iv tag) = 22).
  { unfold enc_settings_bytes, encodeString_str; rewrite !zlen_app, Hiv.
    assert (zlen (le_bytes 4 tag) = 4) by (unfold zlen; rewrite le_bytes_len; reflexivity).
    assert (zlen (encodeVarU64_str ty) = 1).
    { assert (zlen (encodeVarU64_str ty) <= 1 + Z.of_nat 0); [|pose proof (encC_len _ Hty); lia].
      apply encU64_loop_small; [lia|]; change (2 ^ (7 * (Z.of_nat 0 + 1))) with 128; lia. }
    change (zlen (encodeVarU64_str 16)) with 1; lia. }
  destruct (codec_fits _ _ buf max off (Encodes_EncSettings ty iv tag Hty) H0 Hs)
    as [r [Er [_ [Hok Hp]]]].
  rewrite Hl in *.
  assert (E : er_ok r = true) by (apply Hok; lia).
  destruct r as [ok b' p']; cbn [er_ok er_buf er_pos] in *; subst ok.
  specialize (Hp eq_refl); subst p'.
  exists b'; split; [exact Er|].
  intros max' Hm.
  exact (codec_roundtrip _ _ _ _ _ _ _ _ _ (Encodes_EncSettings ty iv tag Hty)
           (Decodes_EncSettings ty iv tag Hty Hi Htag) H0 Hs Er max' Hm).
Qed.


Definition interval_bytes (c : interval) : list Z :=
  encodeVarU64_str (iv_start c) ++ encodeVarU64_str (iv_end c).
Definition file_chunks_bytes (f : file_chunks) : list Z :=
  encodeVarU64_str (fc_seqId f) ++ encodeString_str (fc_fileName f) ++
  encodeVarU64_str (fc_fileSize f) ++ encodeVarU64_str (zlen (fc_chunks f)) ++
  flat_map interval_bytes (fc_chunks f).

Lemma Encodes_ChunkInfo c : interval_ok c -> Encodes (encodeChunkInfo c) (interval_bytes c).
Proof.
  intros [H1 H2]; apply Encodes_seqT; [apply Encodes_encC, H1|apply Encodes_T, Encodes_encC, H2].
Qed.
Lemma Decodes_ChunkInfo c : interval_ok c -> Decodes decodeChunkInfo c (interval_bytes c).
Proof.
  intros [H1 H2]; unfold decodeChunkInfo, interval_bytes.
  apply Decodes_bind with (a := iv_start c); [apply Decodes_Int64C, H1|].
  rewrite <- (app_nil_r (encodeVarU64_str (iv_end c))).
  apply Decodes_bind with (a := iv_end c); [apply Decodes_Int64C, H2|].
  destruct c; apply Decodes_ret.
Qed.
Lemma interval_bytes_ne c : interval_ok c -> interval_bytes c <> [].
Proof.
  intros [H1 _] E; unfold interval_bytes in E; apply app_eq_nil in E.
  apply (encU64_ne (iv_start c)); [unfold in_nat63 in H1; lia|tauto].
Qed.

Lemma Encodes_FileChunks f : file_chunks_ok f ->
  Encodes (encodeFileChunksInfo f) (file_chunks_bytes f).
Proof.
  intros (Hs & Hn & Hf & Hc & Hi); rewrite Forall_forall in Hi.
  pose proof (zlen_nonneg (fc_chunks f)).
  unfold encodeFileChunksInfo, file_chunks_bytes.
  apply Encodes_seqT; [apply Encodes_encC, Hs|].
  apply Encodes_T, Encodes_seqT; [apply Encodes_encS|].
  apply Encodes_T, Encodes_seqT; [apply Encodes_encC, Hf|].
  apply Encodes_T, Encodes_seqT; [apply Encodes_encC; unfold in_nat63; lia|].
  apply EncodesT_fold; intros c Hcin; apply Encodes_T, Encodes_ChunkInfo, Hi, Hcin.
Qed.
Lemma Decodes_FileChunks f : file_chunks_ok f ->
  Decodes decodeFileChunksInfo f (file_chunks_bytes f).
Proof.
  intros (Hs & Hn & Hf & Hc & Hi); rewrite Forall_forall in Hi.
  pose proof (zlen_nonneg (fc_chunks f)); pose proof (zlen_nonneg (fc_fileName f)).
  unfold decodeFileChunksInfo, file_chunks_bytes.
  apply Decodes_bind with (a := fc_seqId f); [apply Decodes_Int64C, Hs|].
  apply Decodes_bind with (a := fc_fileName f); [apply Decodes_String; nat63|].
  apply Decodes_bind with (a := fc_fileSize f); [apply Decodes_Int64C, Hf|].
  apply Decodes_bind with (a := zlen (fc_chunks f)); [apply Decodes_Int64C; unfold in_nat63; lia|].
  destruct (Z.ltb_spec (zlen (fc_chunks f)) 0); [lia|].
  rewrite <- (app_nil_r (flat_map interval_bytes (fc_chunks f))).
  apply Decodes_bind with (a := fc_chunks f).
  - apply Decodes_many; intros c Hcin; [apply Decodes_ChunkInfo, Hi, Hcin|
      apply interval_bytes_ne, Hi, Hcin].
  - destruct f; apply Decodes_ret.
Qed.

Lemma file_chunks_bytes_ne f : file_chunks_ok f -> file_chunks_bytes f <> [].
Proof.
  intros (Hs & _) E; unfold file_chunks_bytes in E; apply app_eq_nil in E.
  apply (encU64_ne (fc_seqId f)); [unfold in_nat63 in Hs; lia|tauto].
Qed.

(** maxEncodeLen really bounds the encoded length (the slack of the 10-byte
    budgets covers a name-length prefix of up to 6 bytes). *)
Lemma file_chunks_bytes_len f : file_chunks_ok f -> zlen (fc_fileName f) < 2 ^ 35 ->
  zlen (file_chunks_bytes f) <= maxEncodeLen f.
Proof.
  intros (Hs & Hn & Hf & Hc & Hi) Hname.
  pose proof (zlen_nonneg (fc_chunks f)); pose proof (zlen_nonneg (fc_fileName f)).
  unfold file_chunks_bytes, maxEncodeLen, kMaxChunkEncodeLen, encodeString_str.
  rewrite !zlen_app.
  pose proof (encC_len _ Hs); pose proof (encC_len _ Hf).
  assert (Hc' : in_nat63 (zlen (fc_chunks f))) by (unfold in_nat63; lia).
  pose proof (encC_len _ Hc').
  assert (Hnp : zlen (encodeVarU64_str (zlen (fc_fileName f))) <= 1 + Z.of_nat 4).
  { apply encU64_loop_small; [lia|].
    change (7 * (Z.of_nat 4 + 1)) with 35; lia. }
  assert (Hfm : zlen (flat_map interval_bytes (fc_chunks f)) <= 18 * zlen (fc_chunks f)).
  { clear - Hi; induction Hi as [|c l [H1 H2] _ IH]; cbn [flat_map].
    - change (zlen (@nil Z)) with 0; change (zlen (@nil interval)) with 0; lia.
    - rewrite zlen_app, zlen_cons; unfold interval_bytes at 1; rewrite zlen_app.
      pose proof (encC_len _ H1); pose proof (encC_len _ H2); lia. }
  set (F := zlen (flat_map interval_bytes (fc_chunks f))) in *.
  change (Z.of_nat 4) with 4 in Hnp; lia.
Qed.

Lemma SafeDec_ChunkInfo : SafeDec decodeChunkInfo interval_ok.
Proof.
  unfold decodeChunkInfo.
  apply SafeDec_bind with (P := in_nat63); [apply SafeDec_Int64C|intros a Ha].
  apply SafeDec_W, SafeDec_bind with (P := in_nat63); [apply SafeDec_Int64C|intros b Hb].
  apply SafeDecW_ret; split; assumption.
Qed.
Lemma SafeDec_FileChunks : SafeDec decodeFileChunksInfo (fun f =>
  in_nat63 (fc_seqId f) /\ in_nat63 (fc_fileSize f) /\ Forall interval_ok (fc_chunks f)).
Proof.
  unfold decodeFileChunksInfo.
  apply SafeDec_bind with (P := in_nat63); [apply SafeDec_Int64C|intros s Hs].
  apply SafeDec_W, SafeDec_bind with (P := bytes_ok); [apply SafeDec_String|intros n Hn].
  apply SafeDec_W, SafeDec_bind with (P := in_nat63); [apply SafeDec_Int64C|intros fs Hf].
  apply SafeDec_W, SafeDec_bind with (P := in_nat63); [apply SafeDec_Int64C|intros k Hk].
  destruct (k <? 0); [apply SafeDecW_fail|].
  eapply SafeDecW_bind; [apply SafeDecW_many, SafeDec_ChunkInfo|].
  intros l [Hl _]; apply SafeDecW_ret; cbn; auto.
Qed.

Lemma SafeDecW_FCList : SafeDecW decodeFileChunksInfoList (fun fs => Forall (fun f =>
  in_nat63 (fc_seqId f) /\ in_nat63 (fc_fileSize f) /\ Forall interval_ok (fc_chunks f)) fs).
Proof.
  intros br Hb; unfold decodeFileChunksInfoList.
  assert (H : forall fuel br, bytes_ok br -> (length br <= fuel)%nat ->
    exists r, decFCList_loop fuel br = Ret r /\ forall l rest, r = Some (l, rest) ->
      Forall (fun f => in_nat63 (fc_seqId f) /\ in_nat63 (fc_fileSize f)
                       /\ Forall interval_ok (fc_chunks f)) l /\
      exists used, br = used ++ rest); [|apply H; [exact Hb|lia]].
  clear br Hb; intros fuel; induction fuel as [|fuel IH]; intros br Hb Hf.
  - destruct br; [|cbn [length] in Hf; lia].
    eexists; split; [reflexivity|]; intros l rest E; injection E as <- <-.
    split; [constructor|exists []; reflexivity].
  - destruct br as [|b br].
    + eexists; split; [reflexivity|]; intros l rest E; injection E as <- <-.
      split; [constructor|exists []; reflexivity].
    + cbn [decFCList_loop]; unfold dbind at 1.
      destruct (SafeDec_FileChunks (b :: br) Hb) as [r [Er Hr]]; rewrite Er; cbn [obind].
      destruct r as [[f rest]|]; [|eexists; split; [reflexivity|discriminate]].
      destruct (Hr f rest eq_refl) as [Hff [u [Hu Hbr]]].
      assert (Hlen : (length rest < length (b :: br))%nat).
      { rewrite Hbr, app_length; destruct u; [congruence|cbn [length]; lia]. }
      assert (Hbrest : bytes_ok rest).
      { rewrite Hbr in Hb; apply bytes_ok_app in Hb; tauto. }
      destruct (IH rest Hbrest) as [r2 [Er2 Hr2]]; [lia|].
      unfold dbind; rewrite Er2; cbn [obind].
      destruct r2 as [[l rest2]|]; [|eexists; split; [reflexivity|discriminate]].
      destruct (Hr2 l rest2 eq_refl) as [Hl [u2 Hu2]].
      eexists; split; [reflexivity|]; intros l' rest' E; injection E as <- <-.
      split; [constructor; assumption|].
      exists (u ++ u2); rewrite Hbr, Hu2, app_assoc; reflexivity.
Qed.

Lemma decodeFCList_bytes fs : Forall file_chunks_ok fs ->
  decodeFileChunksInfoList (flat_map file_chunks_bytes fs) = Ret (Some (fs, [])).
Proof.
  intros H; unfold decodeFileChunksInfoList.
  assert (HH : forall fuel, (length (flat_map file_chunks_bytes fs) <= fuel)%nat ->
     decFCList_loop fuel (flat_map file_chunks_bytes fs) = Ret (Some (fs, [])));
    [|apply HH; lia].
  induction H as [|f fs Hf Hfs IH]; intros fuel Hl; cbn [flat_map] in *.
  - destruct fuel; reflexivity.
  - pose proof (file_chunks_bytes_ne f Hf) as Hne.
    rewrite app_length in Hl.
    destruct fuel as [|fuel].
    { exfalso; destruct (file_chunks_bytes f); [congruence|cbn [length] in Hl; lia]. }
    destruct (file_chunks_bytes f ++ flat_map file_chunks_bytes fs) as [|b r] eqn:E.
    { apply app_eq_nil in E; tauto. }
    cbn [decFCList_loop]; rewrite <- E; unfold dbind at 1.
    rewrite Decodes_FileChunks by exact Hf; cbn [obind].
    unfold dbind; rewrite IH.
    + reflexivity.
    + destruct (file_chunks_bytes f); [congruence|cbn [length] in Hl; lia].
Qed.

(** ---- version negotiation ---- *)
Lemma negotiate_spec a b :
  (negotiateProtocol a b = 0 <-> a < 10 \/ Z.min a b = 0) /\
  (10 <= a -> 10 <= b ->
     negotiateProtocol a b = negotiateProtocol b a /\
     10 <= negotiateProtocol a b /\ negotiateProtocol a b <= a /\ negotiateProtocol a b <= b /\
     (negotiateProtocol a b = a \/ negotiateProtocol a b = b)).
Proof. unfold negotiateProtocol; destruct (Z.ltb_spec a 10), (Z.ltb_spec b 10); lia. Qed.

(** Negotiating again with the agreed version changes nothing. *)
Lemma negotiate_stable a b :
  10 <= a -> 10 <= b -> negotiateProtocol (negotiateProtocol a b) b = negotiateProtocol a b /\
                        negotiateProtocol (negotiateProtocol a b) a = negotiateProtocol a b.
Proof. unfold negotiateProtocol; intros Ha Hb; destruct (Z.ltb_spec a 10); [lia|].
  destruct (Z.ltb_spec (Z.min b a) 10); lia. Qed.

Lemma negotiate_none a b : 10 <= b -> (negotiateProtocol a b = 0 <-> a < 10).
Proof. unfold negotiateProtocol; intros; destruct (Z.ltb_spec a 10); lia. Qed.

Lemma negotiate_asym : exists a b, negotiateProtocol a b <> negotiateProtocol b a.
Proof. exists 33, 9; vm_compute; discriminate. Qed.

Lemma local_checkpoint_fits v c buf max off :
  checkpoint_ok c -> 0 <= off -> 0 <= max <= zlen buf ->
  off + getMaxLocalCheckpointLength v <= max ->
  exists buf' off', encodeCheckpoints v [c] buf max off
    = Ret {| er_ok := true; er_buf := buf'; er_pos := off' |} /\ off' <= off + getMaxLocalCheckpointLength v.
Proof.
  intros Hc H0 Hs Hroom.
  assert (HF : Forall checkpoint_ok [c]) by (constructor; [exact Hc|constructor]).
  destruct (codec_fits _ _ buf max off (EncodesN_Checkpoints v [c] HF) H0) as [r [Er [_ [Hok Hp]]]]; [lia|].
  cbv beta in Er; destruct (Z.ltb_spec max 0); [lia|].
  pose proof (local_checkpoint_len v c Hc).
  assert (E : er_ok r = true) by (apply Hok; lia).
  destruct r as [ok b' p']; cbn [er_ok er_buf er_pos] in *; subst ok.
  exists b', p'; split; [exact Er|]; rewrite Hp by reflexivity; lia.
Qed.
