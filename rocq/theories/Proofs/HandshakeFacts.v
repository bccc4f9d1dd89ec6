(** The settings exchange. *)
From Verif Require Export Spec.HandshakeSpec.
From Verif Require Import Spec.StreamSpec Proofs.BytesFacts Proofs.VarintFacts
  Proofs.ProtocolCodecFacts Proofs.LocalDecFacts Proofs.RecvFacts Proofs.RecvCmdFacts Proofs.SentFacts.

Local Opaque Z.pow Z.quot.

Definition message (v : Z) (s : settings) : list Z := SETTINGS_CMD :: settings_bytes v s.
Lemma enc31_len n : in_nat31 n -> 1 <= zlen (encodeVarU64_str n) <= 5.
Proof.
  intros H. unfold in_nat31 in H. change (2 ^ 31) with 2147483648 in H.
  split; [apply encodeVarU64_str_len; lia|]. change 5 with (1 + Z.of_nat 4). apply encU64_loop_small; [lia|].
  change (2 ^ (7 * (Z.of_nat 4 + 1))) with 34359738368. lia.
Qed.
Lemma message_len v s : in_nat31 v -> settings_ok s -> zlen (st_transferId s) <= 4096 ->
  4 + zlen (st_transferId s) < zlen (message v s) <= 19 + zlen (st_transferId s).
Proof.
  intros Hv (Hr & Hw & _) Hl. unfold message, settings_bytes, settings_body_bytes.
  pose proof (enc31_len _ Hv). pose proof (enc31_len _ Hr). pose proof (enc31_len _ Hw).
  pose proof (encS_len _ Hl). unfold encodeString_str in *. pose proof (zlen_nonneg (st_transferId s)).
  pose proof (encodeVarU64_str_len (zlen (st_transferId s)) ltac:(lia)).
  rewrite zlen_cons, !zlen_app in *.
  destruct (12 <=? v); [change (zlen [settings_flags s]) with 1; lia|change (zlen (@nil Z)) with 0; lia].
Qed.

(** The sender's side. *)
Lemma splice_0 (l bs : list Z) : splice l 0 bs = bs ++ skipn (length bs) l.
Proof. reflexivity. Qed.
Lemma sendSettings_ok v s buf : in_nat31 v -> settings_ok s -> zlen (st_transferId s) <= kMaxTransferIdLength ->
  kMaxHeader <= zlen buf ->
  exists stale, zlen (message v s ++ stale) = zlen buf /\
  sendSettings v s buf = Ret (if st_sendFileChunks s then firstn (Z.to_nat 256) (message v s ++ stale) else message v s).
Proof.
  intros Hv Hs Hl Hb. unfold kMaxTransferIdLength in Hl. assert (K : kMaxHeader = 4150) by reflexivity.
  pose proof (message_len v s Hv Hs ltac:(lia)) as L.
  unfold sendSettings. rewrite upd_in by lia.
  exists (skipn (length (message v s)) buf).
  assert (B1 : zlen (splice buf 0 [SETTINGS_CMD]) = zlen buf).
  { apply zlen_splice; change (zlen [SETTINGS_CMD]) with 1; lia. }
  destruct (Encodes_Settings v s Hv Hs (splice buf 0 [SETTINGS_CMD]) kMaxSettings 1) as (r & -> & Ok & Hr & _).
  { lia. } { rewrite B1. unfold kMaxSettings, kMaxTransferIdLength. lia. }
  cbn [obind]. unfold message in L. rewrite zlen_cons in L.
  destruct (Z.leb_spec (1 + zlen (settings_bytes v s)) kMaxSettings) as [_|Bad];
    [|unfold kMaxSettings, kMaxTransferIdLength in Bad; lia].
  destruct (Hr Ok) as (-> & ->).
  assert (E : splice (splice buf 0 [SETTINGS_CMD]) 1 (settings_bytes v s) = message v s ++ skipn (length (message v s)) buf).
  { change 1 with (0 + zlen [SETTINGS_CMD]) at 1. rewrite splice_app. { apply splice_0. } all: rewrite ?zlen_app; change (zlen [SETTINGS_CMD]) with 1; lia. }
  rewrite E. assert (Lm : zlen (message v s) = 1 + zlen (settings_bytes v s)) by apply zlen_cons.
  assert (Lz : zlen (message v s ++ skipn (length (message v s)) buf) = zlen buf).
  { rewrite zlen_app. unfold zlen at 2. rewrite skipn_length. unfold zlen in *. lia. }
  split; [exact Lz|]. rewrite Lz.
  destruct (st_sendFileChunks s).
  - destruct (Z.ltb_spec (zlen buf) kMinBufLength) as [Bad|_]; [unfold kMinBufLength in Bad; lia|]. reflexivity.
  - destruct (Z.ltb_spec (zlen buf) (1 + zlen (settings_bytes v s))) as [Bad|_]; [lia|].
    f_equal. rewrite <- Lm. unfold slice. cbn [Z.to_nat skipn]. rewrite firstn_zlen_app. reflexivity.
Qed.

(** Reading the first bytes. *)
Lemma sock_read_pre m x r pre : forall c, zlen (in_bytes pre) <= m -> 0 < m ->
  match sock_read (pre ++ Arr x :: r) m c with
  | (None, _) => True
  | (Some bs, c') =>
      (exists pre', rc_in c' = pre' ++ Arr x :: r /\ in_bytes pre = bs ++ in_bytes pre') \/
      (in_bytes pre = [] /\ Z.min (zlen x) m <= zlen bs)
  end.
Proof.
  induction pre as [|[bs|] pre IH]; intros c Hm H0.
  - cbn [app sock_read in_bytes]. destruct x as [|b x].
    + destruct (sock_read r m c) as [[bs|] c']; [|exact I]. right. split; [reflexivity|].
      change (zlen (@nil Z)) with 0. pose proof (zlen_nonneg bs). lia.
    + destruct (Z.leb_spec (zlen (b :: x)) m); right; (split; [reflexivity|]); [lia|].
      rewrite zlen_firstn by lia. lia.
  - cbn [app sock_read]. destruct bs as [|b bs]; [exact (IH c Hm H0)|]. cbn [in_bytes] in Hm |- *.
    rewrite zlen_app in Hm. pose proof (zlen_nonneg (in_bytes pre)).
    destruct (Z.leb_spec (zlen (b :: bs)) m); [|lia].
    left. exists pre. split; reflexivity.
  - cbn [app sock_read]. exact (IH (on_tag c) Hm H0).
Qed.
Lemma ral_whole p base max fail x r k fuel : forall pre c len n c',
  waits p c -> 0 <= base -> 0 <= len -> base + max <= zlen (rc_buf c) -> 256 <= max -> len <= max ->
  (length (in_bytes (rc_in c)) < fuel)%nat ->
  rc_in c = pre ++ Arr x :: r -> len + zlen (in_bytes pre) < 256 -> k <= max ->
  k <= len + zlen (in_bytes pre ++ x) ->
  ral_loop fuel fail c base max 256 len = Ret (n, c') -> n < 256 \/ k <= n.
Proof.
  induction fuel as [|fuel IH]; intros pre c len n c' W Hb Hl HB Ha Hm Hf Hin Hp Hk1 Hk H; [lia|].
  cbn [ral_loop] in H. pose proof (zlen_nonneg (in_bytes pre)). pose proof (zlen_nonneg x).
  destruct (Z.leb_spec 256 len) as [L|L]; [lia|].
  unfold conn_read in H. destruct (Z.leb_spec (max - len) 0); [lia|].
  destruct (Z.ltb_spec (base + len) 0); [lia|].
  destruct (Z.ltb_spec (zlen (rc_buf c)) (base + len + (max - len))); [lia|]. cbn [orb] in H.
  pose proof (sock_read_ok p (max - len) (rc_in c) c ltac:(lia) W) as S.
  rewrite Hin in S, H. pose proof (sock_read_pre (max - len) x r pre c ltac:(lia) ltac:(lia)) as P.
  destruct (sock_read (pre ++ Arr x :: r) (max - len) c) as [[bs|] d]; cbn [obind] in H.
  - destruct S as (S1 & S2 & S3 & S4 & S5).
    assert (Lb : 1 <= zlen bs) by (destruct bs; [congruence|]; rewrite zlen_cons; pose proof (zlen_nonneg bs); lia).
    set (d' := with_buf d (splice (rc_buf d) (base + len) bs)) in *.
    assert (W' : waits p d') by (apply S4; exact W).
    assert (Zb : zlen (rc_buf d') = zlen (rc_buf c)).
    { unfold d'. cbn [with_buf rc_buf]. rewrite S5. apply zlen_splice; lia. }
    assert (Hf' : (length (in_bytes (rc_in d')) < fuel)%nat).
    { unfold d'. cbn [with_buf rc_in]. rewrite Hin, S3, app_length in Hf. unfold zlen in Lb. lia. }
    destruct P as [(pre' & P1 & P2)|(P1 & P2)].
    + rewrite P2, !zlen_app in *. apply (IH pre' d' (len + zlen bs) n c'); auto; try lia.
      rewrite zlen_app. lia.
    + destruct (ral_loop_ok p base max 256 fail fuel d' (len + zlen bs)) as (n1 & c1 & E1 & _ & _ & R1 & _);
        auto; try lia.
      rewrite E1 in H. injection H as <- <-. rewrite P1, !zlen_app in *. change (zlen (@nil Z)) with 0 in *.
      destruct R1 as [(R1 & R2 & _)|(R1 & _)]; lia.
  - injection H as <- <-. left. destruct (fail && (len =? 0))%bool; lia.
Qed.
Lemma ral_above p base max atLeast fail fuel : forall c len n c',
  waits p c -> 0 <= base -> 0 <= len -> base + max <= zlen (rc_buf c) -> atLeast <= max -> len <= max ->
  ral_loop fuel fail c base max atLeast len = Ret (n, c') ->
  (atLeast <= n -> len <= n) /\ forall i, base + Z.max len n <= i -> rd (rc_buf c') i = rd (rc_buf c) i.
Proof.
  induction fuel as [|fuel IH]; intros c len n c' W Hb Hl HB Ha Hm H; cbn [ral_loop] in H;
    destruct (Z.leb_spec atLeast len) as [L|L]; try (injection H as <- <-; split; [lia|reflexivity]); [discriminate|].
  destruct (conn_read_ok p c (base + len) (max - len) W) as (q & d & E & C & Z1 & R); try lia.
  rewrite E in H. cbn [obind] in H. destruct q as [bs|].
  - destruct R as (R1 & R2 & R3 & R4). pose proof (zlen_nonneg bs).
    destruct (IH d (len + zlen bs) n c') as (I1 & I2); auto; try lia.
    { apply C; exact W. }
    split; [lia|]. intros i Hi.
    destruct (Z.leb_spec (base + len + zlen bs) i) as [G|G].
    + destruct (Z.leb_spec (base + Z.max (len + zlen bs) n) i) as [G2|G2].
      * rewrite I2 by lia. rewrite R4, rd_splice by lia.
        destruct (Z.leb_spec (base + len) i); [|lia]. destruct (Z.ltb_spec i (base + len + zlen bs)); [lia|]. reflexivity.
      * lia.
    + destruct (Z.leb_spec atLeast n) as [G2|G2]; [pose proof (I1 G2); lia|].
      (* fewer bytes than wanted: the count returned is still at least [len + |bs|] *)
      exfalso. revert H. clear - G G2 Hi R1 L Ha Hl. intros H.
      assert (forall f c0 l0 n0 c0', 0 < l0 -> ral_loop f fail c0 base max atLeast l0 = Ret (n0, c0') -> l0 <= n0).
      { clear. induction f as [|f IHf]; intros c0 l0 n0 c0' H0 H; cbn [ral_loop] in H;
          destruct (Z.leb_spec atLeast l0); try (injection H as <- <-; lia); [discriminate|].
        destruct (conn_read c0 (base + l0) (max - l0)) as [[[bs|] d0]| |]; try discriminate; cbn [obind] in H.
        - pose proof (zlen_nonneg bs). apply IHf in H; lia.
        - injection H as <- <-. destruct (Z.eqb_spec l0 0); [lia|]. rewrite andb_false_r. lia. }
      assert (1 <= zlen bs) by (destruct bs; [congruence|]; rewrite zlen_cons; pose proof (zlen_nonneg bs); lia).
      destruct (Z.leb_spec (len + zlen bs) 0).
      * lia.
      * apply H0 in H; lia.
  - destruct R as (R1 & R2 & R3). injection H as <- <-. split; [lia|]. intros i Hi. rewrite R3. reflexivity.
Qed.

Lemma read_256 p a l0 buf rv sum : zlen a = 256 -> kMaxHeader <= zlen buf ->
  ~ (exists n c, 256 < n /\ readAtLeast p (fresh_conn buf (Arr a :: l0) rv sum) 0 (zlen buf - 0) 256 0 = Ret (n, c)).
Proof.
  intros La Hb (n & c & Hn & E). assert (K : kMaxHeader = 4150) by reflexivity.
  unfold readAtLeast in E. destruct (Z.ltb_spec 0 0); [lia|]. destruct (Z.leb_spec 256 0); [lia|].
  destruct (Z.ltb_spec (zlen buf - 0) 256); [lia|]. cbn [orb] in E. cbn [ral_loop] in E.
  destruct (Z.leb_spec 256 0); [lia|]. unfold conn_read in E.
  destruct (Z.leb_spec (zlen buf - 0 - 0) 0); [lia|]. cbn [fresh_conn rc_buf rc_in] in E.
  destruct (Z.ltb_spec (0 + 0) 0); [lia|]. destruct (Z.ltb_spec (zlen buf) (0 + 0 + (zlen buf - 0 - 0))); [lia|].
  cbn [orb sock_read] in E. destruct a as [|b a]; [discriminate|].
  destruct (Z.leb_spec (zlen (b :: a)) (zlen buf - 0 - 0)); [|lia]. cbn [obind] in E.
  rewrite La in E. destruct (length (in_bytes (Arr (b :: a) :: l0))) eqn:Q; [discriminate|].
  cbn [ral_loop] in E. change (256 <=? 0 + 256) with true in E. cbv iota in E. injection E as <- <-. lia.
Qed.
Lemma first_read p buf l rv sum u : kMaxHeader <= zlen buf -> in_bytes l = SETTINGS_CMD :: u -> 256 <= zlen (in_bytes l) ->
  exists n c, handshake p (fresh_conn buf l rv sum) = processSettingsCmd p c /\
    rc_off c = 1 /\ rc_old c = 0 /\ rc_num c = n /\ rc_version c = rv /\ 256 <= n <= zlen buf /\
    zlen (rc_buf c) = zlen buf /\ slice (rc_buf c) 0 n ++ in_bytes (rc_in c) = in_bytes l /\
    seen (kvp p) (rc_ev c) = [] /\
    (forall i, n <= i -> rd (rc_buf c) i = rd buf i) /\
    (forall k, k <= zlen buf -> arrives_whole k l -> k <= n) /\
    (forall a l0, l = Arr a :: l0 -> zlen a = 256 -> n = 256).
Proof.
  intros Hb Hu Hl. assert (K : kMaxHeader = 4150) by reflexivity.
  set (c0 := with_old (fresh_conn buf l rv sum) 0).
  assert (W : waits p c0) by (intros _; reflexivity).
  destruct (readAtLeast_ok p c0 0 256 0 W) as (n & c & Er & C & Zb & R & _); cbn [c0 with_old fresh_conn rc_buf] in *; try lia.
  destruct R as [(R1 & R2 & R3)|(R1 & R2 & R3 & R4)].
  2:{ unfold from in R3. cbn [c0 with_old fresh_conn rc_buf rc_in] in R3. change (slice buf 0 0) with (@nil Z) in R3.
      cbn [app] in R3. lia. }
  unfold from in R3. cbn [c0 with_old fresh_conn rc_buf rc_in] in R3. change (slice buf 0 0) with (@nil Z) in R3.
  cbn [app] in R3. destruct C as (C1 & C2 & C3 & C4 & C5 & C6 & C7).
  cbn [c0 with_old fresh_conn rc_off rc_old rc_num rc_version rc_checksum rc_ev] in *.
  assert (Hhd : rd (rc_buf c) 0 = Some SETTINGS_CMD).
  { change 0 with (0 + 0) at 1. rewrite (view_rd (rc_buf c) (in_bytes (rc_in c)) 0 n 0) by lia.
    rewrite R3, Hu. reflexivity. }
  exists n, (with_pos c 1 n). split.
  { unfold handshake, readNextCmd. cbn [fresh_conn rc_off rc_num rc_buf].
    change (with_old _ 0) with c0. change kMinBufLength with 256. rewrite Er. cbn [obind].
    destruct (Z.ltb_spec n 256); [lia|]. rewrite C1, Hhd.
    change (SETTINGS_CMD =? DONE_CMD) with false. change (SETTINGS_CMD =? FILE_CMD) with false.
    change (SETTINGS_CMD =? SETTINGS_CMD) with true. reflexivity. }
  cbn [with_pos rc_off rc_old rc_num rc_version rc_buf rc_in rc_ev].
  split; [reflexivity|]. split; [exact C2|]. split; [reflexivity|]. split; [exact C4|].
  split; [lia|]. split; [exact Zb|]. split; [exact R3|]. split; [exact C6|].
  assert (N256 : forall a l0, l = Arr a :: l0 -> zlen a = 256 -> n = 256).
  { intros a l0 -> La. destruct (Z.leb_spec n 256); [lia|]. exfalso.
    apply (read_256 p a l0 buf rv sum La Hb). exists n, c. split; [lia|exact Er]. }
  unfold readAtLeast in Er.
  destruct (Z.ltb_spec 0 0); [lia|]. destruct (Z.leb_spec 256 0); [lia|].
  destruct (Z.ltb_spec (zlen buf - 0) 256); [lia|]. cbn [orb] in Er. split; [|split; [|exact N256]].
  - intros i Hi. eapply ral_above in Er; eauto; cbn [c0 with_old fresh_conn rc_buf]; try lia.
    destruct Er as (_ & Er). apply Er. lia.
  - intros k Hk (pre & x & r & A1 & A2 & A3).
    assert (Q : n < 256 \/ k <= n); [|lia].
    apply (ral_whole p 0 (zlen buf - 0) (rp_fail p) x r k _ pre c0 0 n c) in Er; auto;
      cbn [c0 with_old fresh_conn rc_buf]; try lia.
Qed.
Lemma seen_no_settings p l s : seen (kvp p) l = [] -> ~ In (RSettings s) l.
Proof.
  intros H Hin. assert (In (LEv (RSettings s)) (seen (kvp p) l)).
  { apply in_flat_map. exists (RSettings s). split; [exact Hin|]. left. reflexivity. }
  rewrite H in *. contradiction.
Qed.

(** Decoding a message the buffer holds whole. *)
Lemma accept_version rv v : 12 <= v <= rv -> settings_version rv v = inr v /\ settings_new_version rv v = v.
Proof.
  intros H. unfold settings_version, settings_new_version, negotiateProtocol.
  destruct (Z.eqb_spec v rv); [subst; auto|]. destruct (Z.ltb_spec v 10); [lia|].
  rewrite Z.min_r by lia. destruct (Z.eqb_spec v 0); [lia|]. rewrite Z.eqb_refl. auto.
Qed.
Lemma visible_all v s : 12 <= v -> settings_visible v s = s.
Proof. intros. unfold settings_visible. destruct (Z.leb_spec 12 v); [|lia]. destruct s; reflexivity. Qed.
Lemma decode_version_at v body w buf : in_nat31 v -> buf = SETTINGS_CMD :: (encodeVarU64_str v ++ body) ++ w -> 10 <= zlen buf ->
  decode_at decodeVersion buf 1 (0 + kMaxVersion) = Ret (Some (v, 1 + zlen (encodeVarU64_str v))).
Proof.
  intros Hv -> Hb. change (0 + kMaxVersion) with 10.
  pose proof (enc31_len v Hv) as L. set (e := encodeVarU64_str v) in *.
  rewrite decode_at_eq by lia. change (SETTINGS_CMD :: (e ++ body) ++ w) with ([SETTINGS_CMD] ++ (e ++ body) ++ w) in *.
  rewrite <- app_assoc in *. change 1 with (zlen [SETTINGS_CMD]) at 1.
  rewrite !zlen_app in Hb. change (zlen [SETTINGS_CMD]) with 1 in Hb.
  rewrite slice_mid by (rewrite ?zlen_app; lia).
  unfold decodeVersion, e. rewrite (Decodes_Int32C v Hv). cbn [obind].
  rewrite zlen_slice by (rewrite ?zlen_app; fold e; lia). do 3 f_equal. lia.
Qed.
Lemma process_whole p c v s w : rc_buf c = message v s ++ w -> rc_off c = 1 -> rc_old c = 0 ->
  1066 <= zlen (rc_buf c) -> in_nat31 v -> 12 <= v <= rc_version c -> settings_ok s ->
  zlen (st_transferId s) <= kMaxTransferIdLength ->
  exists c', processSettingsCmd p c = Ret (c', if list_eq_dec Z.eq_dec (st_transferId s) (rp_id p)
                        then if st_sendFileChunks s then GoChunks else GoRead
                        else GoAbort ID_MISMATCH) /\
    (st_transferId s = rp_id p ->
      rc_ev c' = rc_ev c ++ [RSettings s] /\ rc_version c' = v /\ rc_checksum c' = st_enableChecksum s /\
      rc_buf c' = rc_buf c /\ rc_in c' = rc_in c /\
      (st_sendFileChunks s = false -> rc_off c' = zlen (message v s) /\ rc_num c' = rc_num c - zlen (message v s))).
Proof.
  intros Hb Ho Hold Hz Hv Hrv Hs Hl. unfold kMaxTransferIdLength in Hl.
  pose proof (message_len v s Hv Hs ltac:(lia)) as L.
  pose proof (enc31_len v Hv) as Le. destruct (accept_version _ _ Hrv) as (Sv & Sn).
  unfold processSettingsCmd. rewrite Ho, Hold.
  rewrite (decode_version_at v (settings_body_bytes v s) w) by (auto; lia). cbn [obind].
  rewrite Sv. unfold message, settings_bytes in L, Hb. set (e := encodeVarU64_str v) in *. set (sb := settings_body_bytes v s) in *.
  rewrite zlen_cons, zlen_app in L.
  unfold decodeSettings. assert (Kz : 0 + kMaxVersion + kMaxSettings = 1066) by reflexivity. rewrite Kz.
  destruct (Z.ltb_spec (1 + zlen e) 0); [lia|]. destruct (Z.leb_spec 1066 (1 + zlen e)); [lia|].
  assert (Hb' : rc_buf c = (SETTINGS_CMD :: e) ++ sb ++ w).
  { rewrite Hb. cbn [app]. rewrite <- app_assoc. reflexivity. }
  rewrite decode_at_eq by lia.
  assert (Sl : slice (rc_buf c) (1 + zlen e) (1066 - (1 + zlen e)) = sb ++ slice w 0 (1066 - (1 + zlen e) - zlen sb)).
  { rewrite Hb', !zlen_app, zlen_cons in Hz. rewrite Hb', <- (zlen_cons SETTINGS_CMD e).
    apply slice_mid; rewrite ?zlen_cons; lia. }
  rewrite Sl. rewrite Hb', !zlen_app, zlen_cons in Hz. unfold sb at 1. rewrite (Decodes_SettingsBody v s Hs). cbn [obind].
  rewrite visible_all by lia. rewrite zlen_slice by lia.
  replace (1066 - (1066 - (1 + zlen e) - zlen sb)) with (1 + zlen e + zlen sb) by lia.
  destruct (list_eq_dec Z.eq_dec (st_transferId s) (rp_id p)) as [E|E].
  2:{ eexists. split; [reflexivity|]. intros; contradiction. }
  destruct (st_sendFileChunks s); eexists; (split; [reflexivity|]); intros _;
    cbn [with_pos log_ev with_mode rc_ev rc_version rc_checksum rc_buf rc_in rc_off rc_num].
  { repeat split; auto; discriminate. }
  repeat split; auto; unfold message, settings_bytes; fold e sb; rewrite zlen_cons, zlen_app; lia.
Qed.

(** The exchange, when the message is whole in what was read. *)
Lemma app_prefix (a b u t : list Z) : a ++ b = u ++ t -> zlen u <= zlen a ->
  exists w, a = u ++ w /\ t = w ++ b.
Proof.
  revert u. induction a as [|x a IH]; intros u E L.
  - destruct u; [|rewrite zlen_cons in L; change (zlen (@nil Z)) with 0 in L; pose proof (zlen_nonneg u); lia].
    exists []. split; [reflexivity|]. symmetry. exact E.
  - destruct u as [|y u].
    + exists (x :: a). split; [reflexivity|]. symmetry. exact E.
    + injection E as -> E. rewrite !zlen_cons in L. destruct (IH u E ltac:(lia)) as (w & -> & ->). exists w. auto.
Qed.
Lemma handshake_whole p buf l rv sum v s rest : kMaxHeader <= zlen buf -> in_nat31 v -> 12 <= v <= rv ->
  settings_ok s -> zlen (st_transferId s) <= kMaxTransferIdLength ->
  in_bytes l = message v s ++ rest -> 256 <= zlen (in_bytes l) ->
  zlen (message v s) <= 256 \/ arrives_whole (zlen (message v s)) l ->
  understood p v s rest (handshake p (fresh_conn buf l rv sum)).
Proof.
  intros Hb Hv Hrv Hs Hid Hl H256 Hw. assert (K : kMaxHeader = 4150) by reflexivity.
  assert (Hid' := Hid). unfold kMaxTransferIdLength in Hid'.
  pose proof (message_len v s Hv Hs ltac:(lia)) as L.
  destruct (first_read p buf l rv sum (settings_bytes v s ++ rest) Hb Hl H256)
    as (n & c & E & C1 & C2 & C3 & C4 & C5 & C6 & C7 & C8 & C9 & C10 & _).
  assert (Hn : zlen (message v s) <= n) by (destruct Hw as [Hw|Hw]; [lia|apply C10; [lia|exact Hw]]).
  rewrite Hl in C7. destruct (app_prefix _ _ _ _ C7) as (w & W1 & W2); [rewrite zlen_slice by lia; exact Hn|].
  assert (B : rc_buf c = message v s ++ w ++ skipn (Z.to_nat n) (rc_buf c)).
  { rewrite app_assoc, <- W1. unfold slice. cbn [Z.to_nat skipn]. symmetry. apply firstn_skipn. }
  destruct (process_whole p c v s _ B C1 C2) as (c' & P & Q); auto; try lia.
  unfold understood. exists c'. split; [rewrite E; exact P|].
  intros I. destruct (Q I) as (Q1 & Q2 & Q3 & Q4 & Q5 & Q6).
  split; [rewrite Q1; apply in_or_app; right; left; reflexivity|]. split.
  { intros s' H. rewrite Q1 in H. apply in_app_or in H. destruct H as [H|[H|[]]].
    - exfalso. exact (seen_no_settings p _ _ C8 H).
    - congruence. }
  split; [exact Q2|]. split; [exact Q3|]. intros Hc. destruct (Q6 Hc) as (Q7 & Q8).
  unfold pending. rewrite Q4, Q5, Q7, Q8, C3. rewrite W2.
  f_equal. rewrite B, app_assoc. assert (Lw : n - zlen (message v s) = zlen w).
  { assert (zlen (slice (rc_buf c) 0 n) = n) by (apply zlen_slice; lia). rewrite W1, zlen_app in H. lia. }
  rewrite Lw, <- app_assoc. unfold slice. rewrite skipn_zlen_app, firstn_zlen_app. reflexivity.
Qed.

(** Every id of at most 237 bytes. *)
Lemma handshake_short p v s sbuf m buf l rv sum rest : in_nat31 v -> 12 <= v <= rv -> settings_ok s ->
  zlen (st_transferId s) <= 237 -> kMaxHeader <= zlen sbuf -> kMaxHeader <= zlen buf ->
  sendSettings v s sbuf = Ret m -> in_bytes l = m ++ rest -> 256 <= zlen (in_bytes l) ->
  understood p v s rest (handshake p (fresh_conn buf l rv sum)).
Proof.
  intros Hv Hrv Hs Hid Hsb Hb Hm Hl H256.
  assert (K : kMaxTransferIdLength = 1024) by reflexivity.
  pose proof (message_len v s Hv Hs ltac:(lia)) as L.
  destruct (sendSettings_ok v s sbuf Hv Hs ltac:(lia) Hsb) as (stale & Lz & E).
  rewrite E in Hm. assert (Hm' : m = if st_sendFileChunks s then firstn (Z.to_nat 256) (message v s ++ stale) else message v s) by congruence. clear Hm E. subst m. rewrite zlen_app in Lz.
  destruct (st_sendFileChunks s) eqn:C.
  - rewrite firstn_app_zlen, <- app_assoc in Hl by lia.
    assert (U : understood p v s (firstn (Z.to_nat (256 - zlen (message v s))) stale ++ rest)
                  (handshake p (fresh_conn buf l rv sum))).
    { apply handshake_whole; auto; lia. }
    destruct U as (c & U1 & U2). exists c. split; [exact U1|]. intros I.
    destruct (U2 I) as (V1 & V2 & V3 & V4 & V5). repeat (split; [assumption|]). congruence.
  - apply handshake_whole; auto; lia.
Qed.
(** Longer ids, when the receiver happens to get the whole message. *)
Lemma handshake_lucky p v s sbuf m buf l rv sum rest : in_nat31 v -> 12 <= v <= rv -> settings_ok s ->
  zlen (st_transferId s) <= kMaxTransferIdLength -> st_sendFileChunks s = false ->
  kMaxHeader <= zlen sbuf -> kMaxHeader <= zlen buf ->
  sendSettings v s sbuf = Ret m -> in_bytes l = m ++ rest -> 256 <= zlen (in_bytes l) -> arrives_whole (zlen m) l ->
  understood p v s rest (handshake p (fresh_conn buf l rv sum)).
Proof.
  intros Hv Hrv Hs Hid C Hsb Hb Hm Hl H256 Hw.
  destruct (sendSettings_ok v s sbuf Hv Hs ltac:(lia) Hsb) as (stale & Lz & E).
  rewrite E in Hm. assert (Hm' : m = if st_sendFileChunks s then firstn (Z.to_nat 256) (message v s ++ stale) else message v s) by congruence. clear Hm E. subst m. rewrite C in *. apply handshake_whole; auto.
Qed.

(** Otherwise the end of the message is taken from what the buffer held. *)
Definition stale_settings (s : settings) (k : Z) (x : Z) : settings :=
  {| st_readTimeoutMillis := st_readTimeoutMillis s; st_writeTimeoutMillis := st_writeTimeoutMillis s;
     st_transferId := firstn (Z.to_nat k) (st_transferId s) ++ repeat x (Z.to_nat (zlen (st_transferId s) - k));
     st_enableChecksum := false; st_sendFileChunks := x =? 2; st_blockModeDisabled := false;
     st_enableHeartBeat := false |}.
Lemma stale_message v s x B : x = 0 \/ x = 2 -> in_nat31 v -> 12 <= v -> settings_ok s ->
  252 <= zlen (st_transferId s) <= kMaxTransferIdLength -> kMaxHeader <= B ->
  exists k, settings_ok (stale_settings s k x) /\ zlen (st_transferId (stale_settings s k x)) = zlen (st_transferId s) /\
    exists w, firstn (Z.to_nat 256) (message v s) ++ repeat x (Z.to_nat (B - 256)) = message v (stale_settings s k x) ++ w.
Proof.
  intros Hx Hv H12 Hs Hid HB. assert (K : kMaxHeader = 4150) by reflexivity.
  assert (K2 : kMaxTransferIdLength = 1024) by reflexivity. rewrite K2 in *.
  pose proof (message_len v s Hv Hs ltac:(lia)) as L.
  set (id := st_transferId s) in *.
  set (head := SETTINGS_CMD :: encodeVarU64_str v ++ encodeVarU64_str (st_readTimeoutMillis s) ++
                 encodeVarU64_str (st_writeTimeoutMillis s) ++ encodeVarU64_str (zlen id)).
  assert (M : forall t, st_readTimeoutMillis t = st_readTimeoutMillis s -> st_writeTimeoutMillis t = st_writeTimeoutMillis s ->
            zlen (st_transferId t) = zlen id -> message v t = head ++ st_transferId t ++ [settings_flags t]).
  { intros t T1 T2 T3. unfold message, settings_bytes, settings_body_bytes, encodeString_str, head.
    destruct (Z.leb_spec 12 v); [|lia]. rewrite T1, T2, T3. rewrite <- !app_comm_cons, <- !app_assoc. reflexivity. }
  set (k := 256 - zlen head). rewrite (M s eq_refl eq_refl eq_refl) in L |- *. fold id in L |- *.
  rewrite !zlen_app in L. change (zlen [settings_flags s]) with 1 in L.
  assert (Hk : 0 <= k <= zlen id) by (unfold k; lia).
  assert (Lid : zlen (st_transferId (stale_settings s k x)) = zlen id).
  { cbn [stale_settings st_transferId]. fold id. rewrite zlen_app, zlen_repeat, zlen_firstn by lia. lia. }
  exists k. split; [|split; [exact Lid|]].
  { destruct Hs as (H1 & H2 & H3). split; [exact H1|]. split; [exact H2|]. rewrite Lid. exact H3. }
  exists (repeat x (Z.to_nat (B - (zlen head + zlen id + 1)))).
  rewrite (M (stale_settings s k x) eq_refl eq_refl Lid).
  assert (F : settings_flags (stale_settings s k x) = x) by (destruct Hx as [-> | ->]; reflexivity).
  rewrite F. cbn [stale_settings st_transferId]. fold id.
  rewrite firstn_app_zlen by lia. fold k. rewrite firstn_app. assert (Hk2 : k <= Z.of_nat (length id)) by exact (proj2 Hk).
  replace (Z.to_nat k - length id)%nat with O by lia. rewrite firstn_O, app_nil_r.
  rewrite <- !app_assoc. do 2 f_equal.
  change [x] with (repeat x 1). rewrite <- repeat_app, <- repeat_app. f_equal. unfold k. lia.
Qed.

Lemma handshake_stale p v s x m l buf rv sum : x = 0 \/ x = 2 -> in_nat31 v -> 12 <= v <= rv -> settings_ok s ->
  252 <= zlen (st_transferId s) <= kMaxTransferIdLength -> kMaxHeader <= zlen buf ->
  buf = repeat x (length buf) -> firstn (Z.to_nat 256) (in_bytes l) = firstn (Z.to_nat 256) (message v s) ->
  256 <= zlen (in_bytes l) -> m = firstn (Z.to_nat 256) (message v s) ->
  (in_bytes l = m \/ exists l0, l = Arr m :: l0) ->
  exists c go, handshake p (fresh_conn buf l rv sum) = Ret (c, go) /\
    (go = GoAbort ID_MISMATCH \/ go = if x =? 2 then GoChunks else GoRead).
Proof.
  intros Hx Hv Hrv Hs Hid Hb Hrep Hl H256 Hm Hseg. assert (K : kMaxHeader = 4150) by reflexivity.
  assert (K2 : kMaxTransferIdLength = 1024) by reflexivity.
  pose proof (message_len v s Hv Hs ltac:(lia)) as L.
  assert (Lm : zlen m = 256) by (rewrite Hm, zlen_firstn by lia; lia).
  assert (Hcmd : exists u, in_bytes l = SETTINGS_CMD :: u).
  { destruct (in_bytes l) as [|b u]; [change (zlen (@nil Z)) with 0 in H256; lia|].
    unfold message in Hl. change (Z.to_nat 256) with (S (Z.to_nat 255)) in Hl. cbn [firstn] in Hl.
    injection Hl as -> _. exists u. reflexivity. }
  destruct Hcmd as (u & Hu).
  destruct (first_read p buf l rv sum u Hb Hu H256)
    as (n & c & E & C1 & C2 & C3 & C4 & C5 & C6 & C7 & C8 & C9 & C10 & C11).
  assert (Hn : n = 256).
  { destruct Hseg as [Hseg|(l0 & Hseg)]; [|exact (C11 _ _ Hseg Lm)].
    assert (Q : zlen (slice (rc_buf c) 0 n) = n) by (apply zlen_slice; lia).
    assert (Q2 : zlen (slice (rc_buf c) 0 n ++ in_bytes (rc_in c)) = 256) by (rewrite C7, Hseg; exact Lm).
    rewrite zlen_app, Q in Q2. pose proof (zlen_nonneg (in_bytes (rc_in c))). lia. }
  subst n. rewrite Hn in *.
  assert (B : rc_buf c = firstn (Z.to_nat 256) (message v s) ++ repeat x (Z.to_nat (zlen buf - 256))).
  { rewrite <- Hl, <- C7. rewrite firstn_app.
    assert (Q : zlen (slice (rc_buf c) 0 256) = 256) by (apply zlen_slice; lia).
    unfold zlen in Q. replace (Z.to_nat 256 - length (slice (rc_buf c) 0 256))%nat with O by lia.
    rewrite firstn_O, app_nil_r. rewrite firstn_all2 by lia.
    rewrite <- (firstn_skipn (Z.to_nat 256) (rc_buf c)) at 1. f_equal.
    apply rd_ext; [rewrite zlen_skipn, zlen_repeat by lia; lia|]. intros i.
    destruct (Z.ltb_spec i 0); [rewrite !rd_neg by lia; reflexivity|]. rewrite rd_skipn by lia.
    rewrite C9 by lia. rewrite Hrep.
    assert (Rr : forall nn j, rd (repeat x nn) j = if (0 <=? j) && (j <? Z.of_nat nn) then Some x else None).
    { intros nn j. destruct (Z.leb_spec 0 j); [|apply rd_neg; lia]. cbn [andb].
      destruct (Z.ltb_spec j (Z.of_nat nn)).
      - destruct (rd_in (repeat x nn) j) as (y & Ey); [unfold zlen; rewrite repeat_length; lia|].
        rewrite Ey. f_equal. apply rd_In in Ey. exact (repeat_spec _ _ _ Ey).
      - apply rd_ge. unfold zlen; rewrite repeat_length. lia. }
    rewrite !Rr. unfold zlen in *. rewrite repeat_length.
    destruct (Z.leb_spec 0 i), (Z.leb_spec 0 (256 + i)), (Z.ltb_spec (256 + i) (Z.of_nat (length buf))),
      (Z.ltb_spec i (Z.of_nat (Z.to_nat (Z.of_nat (length buf) - 256)))); try lia; reflexivity. }
  destruct (stale_message v s x (zlen buf) Hx Hv ltac:(lia) Hs Hid Hb) as (k & S1 & S2 & w & S3).
  rewrite S3 in B.
  destruct (process_whole p c v (stale_settings s k x) w B C1 C2) as (c' & P & _); auto; try lia.
  rewrite E, P. eexists _, _. split; [reflexivity|].
  destruct (list_eq_dec Z.eq_dec (st_transferId (stale_settings s k x)) (rp_id p)); [right|left]; reflexivity.
Qed.
Lemma handshake_resumption_long p v s sbuf m l buf rv sum rest : in_nat31 v -> 12 <= v <= rv -> settings_ok s ->
  252 <= zlen (st_transferId s) <= kMaxTransferIdLength -> st_sendFileChunks s = true -> st_transferId s = rp_id p ->
  kMaxHeader <= zlen sbuf -> kMaxHeader <= zlen buf -> buf = repeat 0 (length buf) ->
  sendSettings v s sbuf = Ret m -> in_bytes l = m ->
  ~ understood p v s rest (handshake p (fresh_conn buf l rv sum)).
Proof.
  intros Hv Hrv Hs Hid C I Hsb Hb Hrep Hm Hl (c & U & _).
  assert (K2 : kMaxTransferIdLength = 1024) by reflexivity.
  pose proof (message_len v s Hv Hs ltac:(lia)) as L.
  destruct (sendSettings_ok v s sbuf Hv Hs ltac:(lia) Hsb) as (stale & Lz & E).
  rewrite E, C in Hm. assert (Hm' : m = firstn (Z.to_nat 256) (message v s ++ stale)) by congruence.
  rewrite firstn_app in Hm'. assert (L2 : 256 <= Z.of_nat (length (message v s))) by (unfold zlen in L, Hid; lia).
  replace (Z.to_nat 256 - length (message v s))%nat with O in Hm' by lia. rewrite firstn_O, app_nil_r in Hm'.
  assert (Lm : zlen m = 256) by (rewrite Hm', zlen_firstn by lia; unfold zlen; lia).
  destruct (handshake_stale p v s 0 m l buf rv sum) as (c' & go & H1 & H2); auto.
  { rewrite Hl, Hm'. rewrite firstn_firstn. f_equal. }
  { rewrite Hl. lia. }
  rewrite H1, C in U. destruct (list_eq_dec Z.eq_dec (st_transferId s) (rp_id p)); [|contradiction].
  injection U as _ U. destruct H2 as [-> | ->]; discriminate.
Qed.
Lemma handshake_unlucky p v s sbuf m buf rv sum rest : in_nat31 v -> 12 <= v <= rv -> settings_ok s ->
  252 <= zlen (st_transferId s) <= kMaxTransferIdLength -> st_sendFileChunks s = false -> st_transferId s = rp_id p ->
  kMaxHeader <= zlen sbuf -> kMaxHeader <= zlen buf -> buf = repeat 2 (length buf) ->
  sendSettings v s sbuf = Ret m ->
  ~ understood p v s rest (handshake p (fresh_conn buf
      [Arr (firstn (Z.to_nat 256) m); Arr (skipn (Z.to_nat 256) m ++ rest)] rv sum)).
Proof.
  intros Hv Hrv Hs Hid C I Hsb Hb Hrep Hm (c & U & _).
  assert (K2 : kMaxTransferIdLength = 1024) by reflexivity.
  pose proof (message_len v s Hv Hs ltac:(lia)) as L.
  destruct (sendSettings_ok v s sbuf Hv Hs ltac:(lia) Hsb) as (stale & Lz & E).
  rewrite E, C in Hm. assert (Hm' : m = message v s) by congruence. clear Hm E. subst m.
  destruct (handshake_stale p v s 2 (firstn (Z.to_nat 256) (message v s))
    [Arr (firstn (Z.to_nat 256) (message v s)); Arr (skipn (Z.to_nat 256) (message v s) ++ rest)] buf rv sum)
    as (c' & go & H1 & H2); auto.
  { cbn [in_bytes]. rewrite !app_nil_r, app_assoc, firstn_skipn, firstn_app. assert (L2 : 256 <= Z.of_nat (length (message v s))) by (unfold zlen in L, Hid; lia).
    replace (Z.to_nat 256 - length (message v s))%nat with O by lia. rewrite firstn_O, app_nil_r. reflexivity. }
  { cbn [in_bytes]. rewrite !app_nil_r, app_assoc, firstn_skipn, zlen_app. pose proof (zlen_nonneg rest). lia. }
  { right. eexists. reflexivity. }
  rewrite H1, C in U. destruct (list_eq_dec Z.eq_dec (st_transferId s) (rp_id p)); [|contradiction].
  injection U as _ U. destruct H2 as [-> | ->]; discriminate.
Qed.
Definition sample (id : list Z) (chunks : bool) : settings :=
  {| st_readTimeoutMillis := 5000; st_writeTimeoutMillis := 5000; st_transferId := id; st_enableChecksum := true;
     st_sendFileChunks := chunks; st_blockModeDisabled := false; st_enableHeartBeat := true |}.
Definition params (id : list Z) : rparams := {| rp_id := id; rp_tags := false; rp_delete := false; rp_fail := true |}.
Definition filled (x : Z) : list Z := repeat x (Z.to_nat 4150).
Lemma sample_ok id chunks : zlen id <= 1024 -> settings_ok (sample id chunks).
Proof.
  intros H. split; [|split]; cbn [sample st_readTimeoutMillis st_writeTimeoutMillis st_transferId].
  1,2: unfold in_nat31; change (2 ^ 31) with 2147483648; lia.
  change (2 ^ 63) with 9223372036854775808; lia.
Qed.
Lemma handshake_refuted chunks : exists p v s sbuf m buf l,
  settings_ok s /\ zlen (st_transferId s) <= kMaxTransferIdLength /\ st_transferId s = rp_id p /\
  st_sendFileChunks s = chunks /\ zlen sbuf = kMaxHeader /\ zlen buf = kMaxHeader /\ bytes_ok buf /\
  sendSettings v s sbuf = Ret m /\ in_bytes l = m /\
  ~ understood p v s [] (handshake p (fresh_conn buf l v false)).
Proof.
  set (id := repeat 65 (Z.to_nat 300)). set (s := sample id chunks).
  assert (Lid : zlen id = 300) by (apply zlen_repeat; lia).
  assert (Hs : settings_ok s) by (apply sample_ok; lia).
  assert (Hid : zlen (st_transferId s) <= kMaxTransferIdLength).
  { change (st_transferId s) with id. rewrite Lid. unfold kMaxTransferIdLength. lia. }
  assert (Hv : in_nat31 33) by (unfold in_nat31; change (2 ^ 31) with 2147483648; lia).
  assert (Lf : forall x, zlen (filled x) = kMaxHeader) by (intros x; exact (zlen_repeat x 4150 ltac:(lia))).
  assert (Rf : forall x, filled x = repeat x (length (filled x))).
  { intros x. unfold filled. rewrite repeat_length. reflexivity. }
  assert (Bf : forall x, is_byte x -> bytes_ok (filled x)).
  { intros x Hx. apply Forall_forall. intros y Hy. apply repeat_spec in Hy. subst y. exact Hx. }
  destruct (sendSettings_ok 33 s (filled 0) Hv Hs Hid) as (stale & _ & E); [rewrite Lf; lia|].
  remember (if st_sendFileChunks s then _ else _) as m eqn:Em. clear Em.
  destruct chunks.
  - exists (params id), 33, s, (filled 0), m, (filled 0), [Arr m].
    repeat (split; [first [assumption | reflexivity | apply Lf | apply Bf; unfold is_byte; lia
                          | cbn [in_bytes]; apply app_nil_r]|]).
    apply (handshake_resumption_long (params id) 33 s (filled 0) m); auto; try (rewrite Lf; lia); try lia.
    cbn [in_bytes]. apply app_nil_r.
  - exists (params id), 33, s, (filled 0), m, (filled 2),
      [Arr (firstn (Z.to_nat 256) m); Arr (skipn (Z.to_nat 256) m ++ [])].
    repeat (split; [first [assumption | reflexivity | apply Lf | apply Bf; unfold is_byte; lia
                          | cbn [in_bytes]; rewrite !app_nil_r; apply firstn_skipn]|]).
    apply (handshake_unlucky (params id) 33 s (filled 0) m); auto; try (rewrite Lf; lia); try lia.
Qed.
