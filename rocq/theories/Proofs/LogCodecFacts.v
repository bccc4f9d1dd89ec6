(** Encoding and decoding of transfer log entries. *)
From Verif Require Export Proofs.ChunkListFacts Spec.LogSpec.

Local Opaque Z.pow.

(** ---- encoders ---- *)
Lemma after_length type E bs dest max :
  Encodes E bs -> 3 <= max <= zlen dest ->
  exists n d, encodeAfterLength type E dest max = Ret (n, d) /\
    same_outside dest d 0 max /\
    (3 + zlen bs <= max -> n = 3 + zlen bs /\ slice d 0 n = frame (type :: bs)) /\
    (max < 3 + zlen bs -> n = -1).
Proof.
  intros HE Hm; unfold encodeAfterLength.
  destruct (Z.ltb_spec max (2 + 1)); [lia|].
  rewrite upd_in by lia.
  destruct (HE (splice dest 2 [type]) max 3) as [r [Er [Hok [Ht [Hf Hp]]]]]; [lia| |].
  { rewrite zlen_splice; change (zlen [type]) with 1; lia. }
  pose proof (zlen_nonneg bs).
  assert (H1 : same_outside dest (splice dest 2 [type]) 2 max).
  { apply same_outside_splice; change (zlen [type]) with 1; lia. }
  rewrite Er; cbn [obind]; destruct (er_ok r) eqn:Eok; cbn [negb].
  - destruct (Ht eq_refl) as [Hb Hpos].
    symmetry in Hok; apply Z.leb_le in Hok.
    assert (Hb2 : er_buf r = splice dest 2 (type :: bs)).
    { rewrite Hb; change (type :: bs) with ([type] ++ bs).
      rewrite <- splice_app; [reflexivity|lia|].
      rewrite zlen_app; change (zlen [type]) with 1; lia. }
    rewrite Hb2, Hpos.
    assert (Hlb : zlen (le_bytes 2 (3 + zlen bs - 2)) = 2) by apply zlen_le_bytes.
    assert (Hz : zlen (type :: bs) = 1 + zlen bs) by apply zlen_cons.
    assert (Hzs : zlen (splice dest 2 (type :: bs)) = zlen dest)
      by (apply zlen_splice; lia).
    rewrite store_eq by lia.
    do 2 eexists; split; [reflexivity|].
    split; [|split; [|lia]].
    + apply same_outside_trans with (b2 := splice dest 2 (type :: bs)) (a' := 0); [lia| |].
      * assert (Hs : same_outside dest (splice dest 2 (type :: bs)) 2 max)
          by (apply same_outside_splice; lia).
        destruct Hs as [L Hs]; split; [exact L|]; intros i Hi; apply Hs; lia.
      * apply same_outside_splice; lia.
    + intros _; split; [reflexivity|].
      replace (3 + zlen bs) with (2 + (1 + zlen bs)) at 2 by lia.
      rewrite slice_app_split by lia.
      replace (3 + zlen bs - 2) with (1 + zlen bs) in * by lia.
      unfold frame; rewrite Hz.
      pose proof (slice_splice (splice dest 2 (type :: bs)) 0 (le_bytes 2 (1 + zlen bs))) as A1.
      rewrite Hlb in A1; rewrite A1 by lia; f_equal.
      rewrite slice_splice_after by lia.
      change (0 + 2) with 2; rewrite <- Hz; apply slice_splice; lia.
  - symmetry in Hok; apply Z.leb_gt in Hok.
    do 2 eexists; split; [reflexivity|].
    split; [|split; [lia|reflexivity]].
    apply same_outside_trans with (b2 := splice dest 2 [type]) (a' := 3); [lia| |auto].
    destruct H1 as [L Hs]; split; [exact L|]; intros i Hi; apply Hs; lia.
Qed.

Lemma rd_app_head {A} (h d : list A) i : zlen h <= i -> rd (h ++ d) i = rd d (i - zlen h).
Proof. apply rd_app_r. Qed.

Lemma encode_header_spec ts rid ip c dest max :
  in_nat63 ts -> in_nat63 c -> zlen rid < 2 ^ 63 -> zlen ip < 2 ^ 63 ->
  3 <= max <= zlen dest ->
  let body := entry_body (LHeader ts 2 rid ip c) in
  exists n d, encodeLogHeader ts dest max rid ip c = Ret (n, d) /\
    same_outside dest d 0 max /\
    (2 + zlen body <= max -> n = 2 + zlen body /\ slice d 0 n = frame body) /\
    (max < 2 + zlen body -> n = -1).
Proof.
  intros Hts Hc Hr Hi Hm body; unfold encodeLogHeader.
  destruct (Z.ltb_spec (max - 2) 1); [lia|].
  assert (Hsk : zlen (skipn 2 dest) = zlen dest - 2).
  { change 2%nat with (Z.to_nat 2); apply zlen_skipn; lia. }
  assert (Hfk : zlen (firstn 2 dest) = 2).
  { change 2%nat with (Z.to_nat 2); rewrite zlen_firstn; lia. }
  rewrite upd_in by lia.
  set (bs := vint ts ++ vint 2 ++ vstr rid ++ vstr ip ++ vint c).
  assert (HE : Encodes (enc_seq (encC ts) (enc_seq (encC WLOG_VERSION)
            (enc_seq (encS rid) (enc_seq (encS ip) (encC c))))) bs).
  { assert (in_nat63 WLOG_VERSION)
      by (unfold in_nat63, WLOG_VERSION; change (2 ^ 63) with 9223372036854775808; lia).
    repeat apply Encodes_seq; auto using Encodes_encC, Encodes_encS. }
  assert (Hz : zlen body = 1 + zlen bs) by apply zlen_cons.
  destruct (HE (splice (skipn 2 dest) 0 [HEADER]) (max - 2) 1) as [r [Er [Hok [Ht [Hf Hp]]]]]; [lia| |].
  { rewrite zlen_splice; change (zlen [HEADER]) with 1; lia. }
  pose proof (zlen_nonneg bs).
  rewrite Er; cbn [obind]; destruct (er_ok r) eqn:Eok; cbn [negb].
  - destruct (Ht eq_refl) as [Hb Hpos].
    symmetry in Hok; apply Z.leb_le in Hok.
    assert (Hb2 : er_buf r = splice (skipn 2 dest) 0 body).
    { rewrite Hb; change body with ([HEADER] ++ bs).
      rewrite <- splice_app; [reflexivity|lia|].
      rewrite zlen_app; change (zlen [HEADER]) with 1; lia. }
    assert (Hb3 : firstn 2 dest ++ er_buf r = splice dest 2 body).
    { rewrite Hb2; unfold splice; cbn [Z.to_nat firstn app].
      change (Z.to_nat 2) with 2%nat; rewrite skipn_skipn_add; reflexivity. }
    rewrite Hb3, Hpos.
    assert (Hlb : zlen (le_bytes 2 (1 + zlen bs)) = 2) by apply zlen_le_bytes.
    assert (Hzs : zlen (splice dest 2 body) = zlen dest) by (apply zlen_splice; lia).
    rewrite store_eq by lia.
    do 2 eexists; split; [reflexivity|].
    split; [|split; [|lia]].
    + apply same_outside_trans with (b2 := splice dest 2 body) (a' := 0); [lia| |].
      * assert (Hs : same_outside dest (splice dest 2 body) 2 max)
          by (apply same_outside_splice; lia).
        destruct Hs as [L Hs]; split; [exact L|]; intros i Hj; apply Hs; lia.
      * apply same_outside_splice; lia.
    + intros _; split; [lia|].
      replace (1 + zlen bs + 2) with (2 + zlen body) by lia.
      rewrite slice_app_split by lia.
      unfold frame; rewrite Hz.
      pose proof (slice_splice (splice dest 2 body) 0 (le_bytes 2 (1 + zlen bs))) as A1.
      rewrite Hlb in A1; rewrite A1 by lia; f_equal.
      rewrite slice_splice_after by lia.
      change (0 + 2) with 2; rewrite <- Hz; apply slice_splice; lia.
  - symmetry in Hok; apply Z.leb_gt in Hok.
    do 2 eexists; split; [reflexivity|].
    split; [|split; [lia|reflexivity]].
    destruct (Hf eq_refl) as [L Hs].
    rewrite zlen_splice in L by (change (zlen [HEADER]) with 1; lia).
    split; [rewrite zlen_app; lia|].
    intros i [Hi0|Hi0]; [rewrite !rd_neg by lia; reflexivity|].
    rewrite rd_app_r by lia; rewrite Hfk, Hs by lia.
    rewrite rd_splice by (change (zlen [HEADER]) with 1; lia).
    change (zlen [HEADER]) with 1.
    destruct (Z.ltb_spec (i - 2) (0 + 1)); [lia|]; rewrite andb_false_r.
    change 2%nat with (Z.to_nat 2); rewrite rd_skipn by lia; f_equal; lia.
Qed.

Lemma entry_body_cons e : exists t b, entry_body e = t :: b /\ 0 <= t <= 5.
Proof. destruct e; cbn [entry_body]; do 2 eexists; (split; [reflexivity|lia]). Qed.

Lemma encode_spec e dest max :
  entry_fields_ok e -> (forall ts v rid ip c, e = LHeader ts v rid ip c -> v = 2) ->
  3 <= max <= zlen dest ->
  exists n d, encode_of e dest max = Ret (n, d) /\
    same_outside dest d 0 max /\
    (zlen (entry_bytes e) <= max -> n = zlen (entry_bytes e) /\ slice d 0 n = entry_bytes e) /\
    (max < zlen (entry_bytes e) -> n = -1).
Proof.
  intros Hf Hv Hm.
  assert (Hz : forall b, zlen (frame b) = 2 + zlen b).
  { intros b; unfold frame; rewrite zlen_app, zlen_le_bytes; reflexivity. }
  destruct e as [ts v rid ip c|ts name seq size|ts seq off size|ts seq|ts seq size|ts];
    cbn [entry_fields_ok] in Hf; cbn [encode_of]; unfold entry_bytes.
  - rewrite (Hv ts v rid ip c eq_refl).
    destruct Hf as (? & ? & ? & ? & ?).
    destruct (encode_header_spec ts rid ip c dest max) as (n & d & E & S & K1 & K2); auto.
    exists n, d; rewrite Hz; auto.
  - destruct Hf as (? & ? & ? & ?).
    destruct (after_length FILE_CREATION
      (enc_seq (encC ts) (enc_seq (encS name) (enc_seq (encC seq) (encC size))))
      (vint ts ++ vstr name ++ vint seq ++ vint size) dest max) as (n & d & E & S & K1 & K2);
      [repeat apply Encodes_seq; auto using Encodes_encC, Encodes_encS|lia|].
    exists n, d; rewrite Hz; cbn [entry_body]; rewrite zlen_cons.
    split; [exact E|]; split; [exact S|]; split; intros; [|apply K2; lia].
    destruct K1 as [-> K1]; [lia|]; split; [lia|exact K1].
  - destruct Hf as (? & ? & ? & ?).
    destruct (after_length BLOCK_WRITE
      (enc_seq (encC ts) (enc_seq (encC seq) (enc_seq (encC off) (encC size))))
      (vint ts ++ vint seq ++ vint off ++ vint size) dest max) as (n & d & E & S & K1 & K2);
      [repeat apply Encodes_seq; auto using Encodes_encC, Encodes_encS|lia|].
    exists n, d; rewrite Hz; cbn [entry_body]; rewrite zlen_cons.
    split; [exact E|]; split; [exact S|]; split; intros; [|apply K2; lia].
    destruct K1 as [-> K1]; [lia|]; split; [lia|exact K1].
  - destruct Hf as (? & ?).
    destruct (after_length FILE_INVALIDATION (enc_seq (encC ts) (encC seq))
      (vint ts ++ vint seq) dest max) as (n & d & E & S & K1 & K2);
      [repeat apply Encodes_seq; auto using Encodes_encC, Encodes_encS|lia|].
    exists n, d; rewrite Hz; cbn [entry_body]; rewrite zlen_cons.
    split; [exact E|]; split; [exact S|]; split; intros; [|apply K2; lia].
    destruct K1 as [-> K1]; [lia|]; split; [lia|exact K1].
  - destruct Hf as (? & ? & ?).
    destruct (after_length FILE_RESIZE (enc_seq (encC ts) (enc_seq (encC seq) (encC size)))
      (vint ts ++ vint seq ++ vint size) dest max) as (n & d & E & S & K1 & K2);
      [repeat apply Encodes_seq; auto using Encodes_encC, Encodes_encS|lia|].
    exists n, d; rewrite Hz; cbn [entry_body]; rewrite zlen_cons.
    split; [exact E|]; split; [exact S|]; split; intros; [|apply K2; lia].
    destruct K1 as [-> K1]; [lia|]; split; [lia|exact K1].
  - destruct (after_length DIRECTORY_INVALIDATION (encC ts)
      (vint ts) dest max) as (n & d & E & S & K1 & K2);
      [auto using Encodes_encC|lia|].
    exists n, d; rewrite Hz; cbn [entry_body]; rewrite zlen_cons.
    split; [exact E|]; split; [exact S|]; split; intros; [|apply K2; lia].
    destruct K1 as [-> K1]; [lia|]; split; [lia|exact K1].
Qed.

(** ---- decoders ---- *)

(** A decoder that accepts reads the same value when more bytes follow. *)
Definition Ext {A} (D : decoder A) : Prop :=
  forall br v rest q, D br = Ret (Some (v, rest)) -> D (br ++ q) = Ret (Some (v, rest ++ q)).

Lemma decU64_loop_ext n : forall data datalen p val shift v p' q extra,
  datalen = zlen data -> 0 <= p -> 0 <= extra ->
  decU64_loop n data datalen p val shift = Ret (DOk v p') ->
  decU64_loop n (data ++ q) (datalen + extra) p val shift = Ret (DOk v p').
Proof.
  induction n as [|n IH]; intros data datalen p val shift v p' q extra Hd Hp He; cbn [decU64_loop].
  - destruct (rd data p) eqn:E; [|discriminate].
    rewrite rd_app_l by (apply rd_Some_range in E; lia); rewrite E; auto.
  - destruct (rd data p) eqn:E; [|discriminate].
    rewrite rd_app_l by (apply rd_Some_range in E; lia); rewrite E.
    destruct (Z.land z 128 =? 0); [auto|].
    destruct (Z.leb_spec datalen (p + 1)); [discriminate|].
    destruct (Z.leb_spec (datalen + extra) (p + 1)); [lia|].
    apply IH; auto; lia.
Qed.

Lemma decU64_pos n : forall data datalen p val shift v p',
  0 <= p -> decU64_loop n data datalen p val shift = Ret (DOk v p') -> p < p' <= zlen data.
Proof.
  induction n as [|n IH]; intros data datalen p val shift v p' Hp; cbn [decU64_loop];
    (destruct (rd data p) eqn:E; [|discriminate]); apply rd_Some_range in E as Hr.
  - intros H; injection H as _ <-; lia.
  - destruct (Z.land z 128 =? 0).
    + intros H; injection H as _ <-; lia.
    + destruct (Z.leb_spec datalen (p + 1)); [discriminate|].
      intros H'; apply IH in H'; lia.
Qed.

Lemma Ext_UInt64 : Ext decodeUInt64.
Proof.
  intros br v rest q; unfold decodeUInt64, decodeVarU64; rewrite zlen_app.
  pose proof (zlen_nonneg br); pose proof (zlen_nonneg q).
  destruct (Z.ltb_spec 0 0); [lia|].
  destruct (Z.leb_spec (zlen br) 0); [discriminate|].
  destruct (Z.leb_spec (zlen br + zlen q) 0); [lia|].
  destruct (decU64_loop 8 br (zlen br) 0 0 0) as [[w p| ]| | ] eqn:E; cbn [obind]; try discriminate.
  rewrite (decU64_loop_ext 8 br (zlen br) 0 0 0 w p q (zlen q) eq_refl); auto; try lia.
  cbn [obind].
  apply decU64_pos in E as Hp; [|lia].
  destruct (p <? 1); [discriminate|].
  unfold advance; rewrite zlen_app.
  destruct (Z.ltb_spec (zlen br) p); [lia|].
  destruct (Z.ltb_spec (zlen br + zlen q) p); [lia|].
  intros H'; injection H' as <- <-; do 3 f_equal.
  rewrite skipn_app; replace (Z.to_nat p - length br)%nat with 0%nat by (unfold zlen in *; lia).
  reflexivity.
Qed.

Lemma Ext_Int64C : Ext decodeInt64C.
Proof.
  intros br v rest q; unfold decodeInt64C.
  destruct (decodeUInt64 br) as [[[w r]|]| | ] eqn:E; cbn [obind]; try discriminate.
  rewrite (Ext_UInt64 _ _ _ q E); cbn [obind].
  destruct (2 ^ 63 - 1 <? w); [discriminate|].
  intros H; injection H as <- <-; reflexivity.
Qed.
Lemma Ext_Int32C : Ext decodeInt32C.
Proof.
  intros br v rest q; unfold decodeInt32C.
  destruct (decodeInt64C br) as [[[w r]|]| | ] eqn:E; cbn [obind]; try discriminate.
  rewrite (Ext_Int64C _ _ _ q E); cbn [obind].
  match goal with |- context [if ?c then _ else _] => destruct c end; [discriminate|].
  intros H; injection H as <- <-; reflexivity.
Qed.
Lemma Ext_String : Ext decodeString.
Proof.
  intros br v rest q; unfold decodeString.
  destruct (decodeUInt64 br) as [[[w r]|]| | ] eqn:E; cbn [obind]; try discriminate.
  rewrite (Ext_UInt64 _ _ _ q E); cbn [obind]; rewrite zlen_app.
  pose proof (zlen_nonneg q).
  destruct (Z.ltb_spec (zlen r) w); [discriminate|].
  destruct (Z.ltb_spec (zlen r + zlen q) w); [lia|].
  intros H'; injection H' as <- <-; do 3 f_equal; unfold zlen in *.
  - rewrite firstn_app; replace (Z.to_nat w - length r)%nat with 0%nat by lia.
    cbn [firstn]; rewrite app_nil_r; reflexivity.
  - rewrite skipn_app; replace (Z.to_nat w - length r)%nat with 0%nat by lia; reflexivity.
Qed.
Lemma Ext_ret {A} (a : A) : Ext (dret a).
Proof. intros br v rest q H; injection H as <- <-; reflexivity. Qed.
Lemma Ext_bind {A B} (D : decoder A) (f : A -> decoder B) :
  Ext D -> (forall a, Ext (f a)) -> Ext (dbind D f).
Proof.
  intros HD Hf br v rest q; unfold dbind.
  destruct (D br) as [[[w r]|]| | ] eqn:E; cbn [obind]; try discriminate.
  rewrite (HD _ _ _ q E); cbn [obind]; apply Hf.
Qed.

(** Accepting exactly [bs] as [a] rejects every strict prefix and extension. *)
Definition Exact {A} (D : decoder A) (a : A) (bs : list Z) : Prop :=
  decode_all D bs = Ret (Some a) /\
  (forall q, q <> [] -> decode_all D (bs ++ q) = Ret None) /\
  (forall p q, q <> [] -> bs = p ++ q -> bytes_ok bs -> decode_all D p = Ret None).

Lemma exact_intro {A} (D : decoder A) (P : A -> Prop) a bs :
  Decodes D a bs -> Ext D -> SafeDecW D P -> Exact D a bs.
Proof.
  intros HD HE HS; split; [|split].
  - unfold decode_all; rewrite <- (app_nil_r bs), HD; reflexivity.
  - intros q Hq; unfold decode_all; rewrite HD; cbn [obind].
    destruct q; [congruence|reflexivity].
  - intros p q Hq Hbs Hok; unfold decode_all.
    destruct (HS p) as [r [Er Hr]].
    { rewrite Hbs in Hok; apply bytes_ok_app in Hok; tauto. }
    rewrite Er; cbn [obind]; destruct r as [[v rest]|]; [|reflexivity].
    destruct rest as [|b rest]; [|reflexivity].
    exfalso; pose proof (HE p v [] q Er) as H.
    rewrite <- Hbs, <- (app_nil_r bs), HD in H; injection H as _ H.
    cbn [app] in H; congruence.
Qed.

Lemma omap_exact {A B} (f : A -> B) D a bs :
  Exact D a bs ->
  omap f (decode_all D bs) = Ret (Some (f a)) /\
  (forall q, q <> [] -> omap f (decode_all D (bs ++ q)) = Ret None) /\
  (forall p q, q <> [] -> bs = p ++ q -> bytes_ok bs -> omap f (decode_all D p) = Ret None).
Proof.
  intros (H1 & H2 & H3); split; [|split].
  - rewrite H1; reflexivity.
  - intros q Hq; rewrite H2 by exact Hq; reflexivity.
  - intros p q Hq Hp Hb; rewrite (H3 p q Hq Hp Hb); reflexivity.
Qed.

Ltac dec_safe := repeat first
  [ apply SafeDec_W; first [apply SafeDec_Int64C|apply SafeDec_Int32C|apply SafeDec_String]
  | apply SafeDecW_bind with (P := in_nat63); [apply SafeDec_W, SafeDec_Int64C|intros ? _]
  | apply SafeDecW_bind with (P := in_nat31); [apply SafeDec_W, SafeDec_Int32C|intros ? _]
  | apply SafeDecW_bind with (P := bytes_ok); [apply SafeDec_W, SafeDec_String|intros ? _]
  | apply (SafeDecW_ret _ (fun _ => True)); exact I ].
Ltac dec_ext := repeat first
  [ apply Ext_Int64C | apply Ext_Int32C | apply Ext_String | apply Ext_ret
  | apply Ext_bind; [|intros ?] ].

Lemma str_in_u64 (s : list Z) : zlen s < 2 ^ 63 -> in_u64 (zlen s).
Proof.
  intros H; pose proof (zlen_nonneg s); unfold in_u64.
  change (2 ^ 64) with 18446744073709551616; change (2 ^ 63) with 9223372036854775808 in *; lia.
Qed.

Lemma decode_exact e t b : entry_fields_ok e -> entry_body e = t :: b ->
  decode_of t b = Ret (Some e) /\
  (forall q, q <> [] -> decode_of t (b ++ q) = Ret None) /\
  (forall p q, q <> [] -> b = p ++ q -> bytes_ok b -> decode_of t p = Ret None).
Proof.
  intros Hf E.
  destruct e as [ts v rid ip c|ts name seq size|ts seq off size|ts seq|ts seq size|ts];
    cbn [entry_fields_ok] in Hf; cbn [entry_body] in E; injection E as <- <-;
    unfold decode_of; cbn [Z.eqb].
  - destruct Hf as (? & ? & ? & Hr & Hi); apply str_in_u64 in Hr; apply str_in_u64 in Hi.
    change (Z.eqb 0 0) with true; cbn [Pos.eqb].
    apply (omap_exact (fun '(ts, v, rid, ip, c) => LHeader ts v rid ip c) _ (ts, v, rid, ip, c)).
    apply exact_intro with (P := fun _ => True); [|dec_ext|dec_safe].
    rewrite <- (app_nil_r (vint c)).
    repeat (eapply Decodes_bind; [first [apply Decodes_Int64C; assumption
      |apply Decodes_Int32C; assumption|apply Decodes_String; assumption]|]); apply Decodes_ret.
  - destruct Hf as (? & ? & ? & Hr); apply str_in_u64 in Hr; cbn [Pos.eqb].
    apply (omap_exact (fun '(ts, n, q, z) => LCreate ts n q z) _ (ts, name, seq, size)).
    apply exact_intro with (P := fun _ => True); [|dec_ext|dec_safe].
    rewrite <- (app_nil_r (vint size)).
    repeat (eapply Decodes_bind; [first [apply Decodes_Int64C; assumption
      |apply Decodes_Int32C; assumption|apply Decodes_String; assumption]|]); apply Decodes_ret.
  - destruct Hf as (? & ? & ? & ?); cbn [Pos.eqb].
    apply (omap_exact (fun '(ts, q, f, z) => LBlock ts q f z) _ (ts, seq, off, size)).
    apply exact_intro with (P := fun _ => True); [|dec_ext|dec_safe].
    rewrite <- (app_nil_r (vint size)).
    repeat (eapply Decodes_bind; [apply Decodes_Int64C; assumption|]); apply Decodes_ret.
  - destruct Hf as (? & ?); cbn [Pos.eqb].
    apply (omap_exact (fun '(ts, q) => LInval ts q) _ (ts, seq)).
    apply exact_intro with (P := fun _ => True); [|dec_ext|dec_safe].
    rewrite <- (app_nil_r (vint seq)).
    repeat (eapply Decodes_bind; [apply Decodes_Int64C; assumption|]); apply Decodes_ret.
  - destruct Hf as (? & ? & ?); cbn [Pos.eqb].
    apply (omap_exact (fun '(ts, q, z) => LResize ts q z) _ (ts, seq, size)).
    apply exact_intro with (P := fun _ => True); [|dec_ext|dec_safe].
    rewrite <- (app_nil_r (vint size)).
    repeat (eapply Decodes_bind; [apply Decodes_Int64C; assumption|]); apply Decodes_ret.
  - cbn [Pos.eqb].
    apply (omap_exact LDirInval _ ts).
    apply exact_intro with (P := in_nat63); [apply Decodes_Int64C; assumption|dec_ext|dec_safe].
Qed.

(** Sizes. *)
Lemma vstr_len s : zlen s <= 16383 -> zlen (vstr s) <= 2 + zlen s.
Proof.
  intros H; unfold vstr, vint; rewrite zlen_app.
  pose proof (zlen_nonneg s).
  assert (zlen (encodeVarU64_str (zlen s)) <= 1 + Z.of_nat 1).
  { apply encU64_loop_small; [lia|].
    change (2 ^ (7 * (Z.of_nat 1 + 1))) with 16384; lia. }
  lia.
Qed.

Lemma entry_fits e : entry_fields_ok e ->
  (match e with
   | LHeader _ v rid ip _ => v = 2 /\ zlen rid + zlen ip <= 4103
   | LCreate _ name _ _ => zlen name <= 4097
   | _ => True end) ->
  zlen (entry_bytes e) <= 4129.
Proof.
  intros Hf Hb; unfold entry_bytes, frame; rewrite zlen_app, zlen_le_bytes.
  destruct e as [ts v rid ip c|ts name seq size|ts seq off size|ts seq|ts seq size|ts];
    cbn [entry_fields_ok] in Hf; cbn [entry_body]; rewrite zlen_cons, ?zlen_app.
  - destruct Hf as (H1 & H2 & H3 & _ & _); destruct Hb as [-> Hb].
    change (zlen (vint 2)) with 1.
    apply encC_len in H1, H3; unfold vint in *.
    pose proof (zlen_nonneg rid); pose proof (zlen_nonneg ip).
    pose proof (vstr_len rid); pose proof (vstr_len ip); lia.
  - destruct Hf as (H1 & H2 & H3 & _).
    apply encC_len in H1, H2, H3; pose proof (vstr_len name); unfold vint in *; lia.
  - destruct Hf as (H1 & H2 & H3 & H4).
    apply encC_len in H1, H2, H3, H4; unfold vint in *; lia.
  - destruct Hf as (H1 & H2).
    apply encC_len in H1, H2; unfold vint in *; lia.
  - destruct Hf as (H1 & H2 & H3).
    apply encC_len in H1, H2, H3; unfold vint in *; lia.
  - apply encC_len in Hf; unfold vint in *; lia.
Qed.
