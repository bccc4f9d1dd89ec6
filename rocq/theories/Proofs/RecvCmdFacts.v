(** Each command of a connection does what the stream says. *)
From Verif Require Import Model.RecvConn Spec.StreamSpec Spec.CodecSpec Proofs.BytesFacts Proofs.VarintFacts
  Proofs.ProtocolCodecFacts Proofs.LocalDecFacts Proofs.RecvFacts.

Local Opaque Z.pow Z.quot.

Definition cmd_ok (p : rparams) (c : rconn) (u : list Z) (r : sres) (res : outcome (rconn * rnext)) : Prop :=
  exists c' go, res = Ret (c', go) /\ zlen (rc_buf c') = zlen (rc_buf c) /\
  match r with
  | SNext evs m' rest =>
      go = GoRead /\ Inv p c' m' /\ unread c' = rest /\ zlen rest < zlen u /\
      rc_seen p c' = rc_seen p c ++ seen (kvp p) evs
  | SStop evs go' => go = go' /\ go <> GoRead /\ rc_seen p c' = rc_seen p c ++ seen (kvp p) evs
  end.

Lemma stop_ok p c c' u evs go : zlen (rc_buf c') = zlen (rc_buf c) -> go <> GoRead ->
  rc_seen p c' = rc_seen p c ++ seen (kvp p) evs -> cmd_ok p c u (SStop evs go) (Ret (c', go)).
Proof. intros. eexists _, _. split; [reflexivity|]. split; [assumption|]. auto. Qed.
Lemma stop0 p c c' u go : zlen (rc_buf c') = zlen (rc_buf c) -> go <> GoRead ->
  rc_ev c' = rc_ev c -> cmd_ok p c u (SStop [] go) (Ret (c', go)).
Proof.
  intros H1 H2 H3. apply stop_ok; auto. unfold rc_seen. rewrite H3. cbn. rewrite app_nil_r. reflexivity.
Qed.

(** The two parts of the unread stream that a command cuts. *)
Lemma mid_unread p c m u k : Mid p c m u -> 0 <= k <= rc_num c ->
  from c (rc_old c + k) (rc_num c - k) = skipn (Z.to_nat k) u.
Proof.
  intros M Hk. destruct M. unfold from. rewrite view_skip by lia. rewrite md_view. reflexivity.
Qed.
Lemma mid_slice p c m u i k : Mid p c m u -> 0 <= i -> 0 <= k -> i + k <= rc_num c ->
  slice (rc_buf c) (rc_old c + i) k = slice u i k.
Proof. intros M Hi Hk Hn. destruct M. rewrite <- md_view. apply view_slice; lia. Qed.
Lemma mid_rd p c m u i : Mid p c m u -> 0 <= i < rc_num c -> rd (rc_buf c) (rc_old c + i) = rd u i.
Proof. intros M Hi. destruct M. rewrite <- md_view. apply view_rd; lia. Qed.
Lemma mid_len p c m u : Mid p c m u -> rc_num c <= zlen u.
Proof.
  intros M. destruct M. rewrite <- md_view. rewrite zlen_app, zlen_slice by lia.
  pose proof (zlen_nonneg (in_bytes (rc_in c))). lia.
Qed.
Lemma Local_len {A} (D : decoder A) br v r : LocalDec D -> D br = Ret (Some (v, r)) -> zlen r <= zlen br.
Proof.
  intros L H. destruct (L _ _ _ H) as (u & -> & _). rewrite zlen_app. pose proof (zlen_nonneg u). lia.
Qed.
Lemma skipn_zlen_lt (u : list Z) k : 0 < k <= zlen u -> zlen (skipn (Z.to_nat k) u) < zlen u.
Proof. intros H. rewrite zlen_skipn by lia. lia. Qed.

Ltac inv_tac :=
  constructor; [match goal with H : waits _ _ |- _ => exact H end|..];
  cbn [log_ev with_pos with_mode with_buf with_wait rc_buf rc_off rc_num rc_version rc_checksum ss_slack ss_version ss_checksum];
  first [lia|congruence|reflexivity|idtac].

Lemma size_ok p c m u r : Mid p c m u -> bytes_ok u -> spec_size m u = Some r ->
  cmd_ok p c u r (processSizeCmd c).
Proof.
  intros M Hu H. pose proof (mid_len _ _ _ _ M) as Lu. pose proof (base_max_le _ (md_size _ _ _ _ M)) as [Bm _].
  pose proof M as M0. destruct M0. unfold processSizeCmd, spec_size in *.
  rewrite decode_at_eq by (unfold kMaxSize; lia). rewrite md_off.
  replace (rc_old c + kMaxSize - (rc_old c + 1)) with 10 by (unfold kMaxSize; lia).
  rewrite (mid_slice p c m u 1 10 M) by lia.
  destruct (SafeDec_W _ _ SafeDec_Int64C (slice u 1 10) (bytes_ok_slice _ _ _ Hu)) as (x & Ex & _).
  unfold decodeSize in *. rewrite Ex in *. cbn [obind].
  destruct x as [[n rr]|].
  - pose proof (Local_len _ _ _ _ Local_Int64C Ex) as Lr. rewrite zlen_slice in Lr by lia.
    pose proof (zlen_nonneg rr). remember (11 - zlen rr) as len eqn:Elen.
    destruct (Z.leb_spec (ss_slack m + len) 1000); [|discriminate]. injection H as <-.
    cbn [obind]. eexists _, _. split; [reflexivity|]. split; [reflexivity|]. split; [reflexivity|].
    replace (rc_old c + kMaxSize - zlen rr) with (rc_old c + len) by (unfold kMaxSize; lia).
    replace (rc_num c - (rc_old c + len - rc_old c)) with (rc_num c - len) by lia.
    split; [inv_tac|].
    split; [apply (mid_unread p c m u _ M); lia|].
    split; [apply skipn_zlen_lt; lia|].
    unfold rc_seen. cbn [log_ev rc_ev with_pos]. apply seen_app.
  - injection H as <-. cbn [obind]. apply stop0; try reflexivity. discriminate.
Qed.

Lemma SafeDecW_Done v b : exists P, SafeDecW (decodeDone v b) P.
Proof.
  eexists. unfold decodeDone. apply SafeDec_W. eapply SafeDec_bind; [apply SafeDec_Int64C|]. intros a Ha.
  instantiate (1 := fun _ => True). destruct (CHECKPOINT_OFFSET_VERSION <=? v).
  - eapply SafeDec_W, SafeDec_bind; [apply SafeDec_Int64C|]. intros; apply SafeDecW_ret; exact I.
  - apply SafeDecW_ret; exact I.
Qed.
Lemma done_ok p c m u r : Mid p c m u -> bytes_ok u -> spec_done m u = Some r ->
  cmd_ok p c u r (processDoneCmd c).
Proof.
  intros M Hu H. pose proof (mid_len _ _ _ _ M) as Lu. pose proof (base_max_le _ (md_size _ _ _ _ M)) as [Bm _].
  pose proof M as M0. destruct M0. unfold processDoneCmd, spec_done in *.
  destruct (Z.eqb_spec (zlen u) 256) as [U|]; [|discriminate].
  destruct (Z.eqb_spec (rc_num c) kMinBufLength) as [N|N]; [|unfold kMinBufLength in N; lia]. cbn [negb].
  rewrite md_off. rewrite (mid_rd p c m u 1 M) by lia.
  destruct (rd_in u 1 ltac:(lia)) as (st & Es). rewrite Es in *.
  rewrite decode_at_eq by (unfold kMaxDone; lia).
  replace (rc_old c + 1 + 1) with (rc_old c + 2) by lia.
  replace (rc_old c + kMaxDone - (rc_old c + 2)) with 20 by (unfold kMaxDone; lia).
  rewrite (mid_slice p c m u 2 20 M) by lia. rewrite md_version.
  destruct (SafeDecW_Done (ss_version m) (-1)) as (P & SD).
  destruct (SD (slice u 2 20) (bytes_ok_slice _ _ _ Hu)) as (x & Ex & _).
  rewrite Ex in *. cbn [obind]. destruct x as [[n rr]|]; injection H as <-; cbn [obind].
  - apply stop_ok; [reflexivity|discriminate|]. unfold rc_seen. cbn [log_ev with_pos rc_ev]. apply seen_app.
  - apply stop0; try reflexivity. discriminate.
Qed.

Lemma settings_cmd_ok p c m u r : Mid p c m u -> bytes_ok u -> spec_settings p m u = Some r ->
  cmd_ok p c u r (processSettingsCmd p c).
Proof.
  intros M Hu H. pose proof (mid_len _ _ _ _ M) as Lu. pose proof (base_max_le _ (md_size _ _ _ _ M)) as [Bm _].
  pose proof M as M0. destruct M0. unfold processSettingsCmd, spec_settings in *.
  rewrite decode_at_eq by (unfold kMaxVersion; lia). rewrite md_off.
  replace (rc_old c + kMaxVersion - (rc_old c + 1)) with 9 by (unfold kMaxVersion; lia).
  rewrite (mid_slice p c m u 1 9 M) by lia.
  destruct (SafeDec_W _ _ SafeDec_Int32C (slice u 1 9) (bytes_ok_slice _ _ _ Hu)) as (x & Ex & _).
  unfold decodeVersion in *. rewrite Ex in *. cbn [obind].
  destruct x as [[sv rr]|]; cbn [obind].
  2:{ injection H as <-. apply stop0; try reflexivity. discriminate. }
  pose proof (Local_len _ _ _ _ Local_Int32C Ex) as Lr. rewrite zlen_slice in Lr by lia.
  pose proof (zlen_nonneg rr). rewrite <- md_version in H.
  destruct (settings_version (rc_version c) sv) as [go|v] eqn:Sv.
  { injection H as <-. apply stop0; try reflexivity.
    unfold settings_version in Sv. destruct (sv =? rc_version c); [discriminate|].
    destruct (negotiateProtocol sv (rc_version c) =? 0); [injection Sv as <-; discriminate|].
    destruct (negotiateProtocol sv (rc_version c) =? sv); [discriminate|injection Sv as <-; discriminate]. }
  set (k := 10 - zlen rr) in *.
  replace (rc_old c + kMaxVersion - zlen rr) with (rc_old c + k) by (unfold kMaxVersion, k; lia).
  assert (Hk : 1 <= k <= 10) by (unfold k; lia). clearbody k.
  destruct (decodeSettings_body v (slice u k (256 - k))) as [[[s r2]|]| |] eqn:Ed; try discriminate.
  pose proof (Local_len _ _ _ _ (Local_SettingsBody v) Ed) as Lr2. rewrite zlen_slice in Lr2 by lia.
  pose proof (zlen_nonneg r2).
  rewrite <- (mid_slice p c m u k (256 - k) M) in Ed by lia.
  unfold decodeSettings.
  destruct (Z.ltb_spec (rc_old c + k) 0); [lia|].
  assert (Kz : kMaxVersion + kMaxSettings = 1066) by reflexivity.
  destruct (Z.leb_spec (rc_old c + kMaxVersion + kMaxSettings) (rc_old c + k)); [lia|].
  rewrite decode_at_eq by lia.
  replace (rc_old c + kMaxVersion + kMaxSettings - (rc_old c + k)) with (1066 - k) by lia.
  rewrite (decode_longer _ (rc_buf c) (rc_old c + k) (256 - k) (1066 - k) _ _ (Local_SettingsBody v) ltac:(lia) ltac:(lia) Ed). cbn [obind].
  assert (Lz : zlen (slice (rc_buf c) (rc_old c + k + (256 - k)) (1066 - k - (256 - k))) = 810)
    by (rewrite zlen_slice; lia).
  rewrite zlen_app, Lz.
  remember (256 - zlen r2) as len eqn:Elen.
  replace (rc_old c + kMaxVersion + kMaxSettings - (zlen r2 + 810)) with (rc_old c + len) by lia.
  destruct (list_eq_dec Z.eq_dec (st_transferId s) (rp_id p)) as [Ei|Ei].
  2:{ injection H as <-. apply stop0; try reflexivity. discriminate. }
  destruct (st_sendFileChunks s).
  { injection H as <-. apply stop_ok; [reflexivity|discriminate|]. unfold rc_seen.
    cbn [log_ev with_pos with_mode rc_ev]. apply seen_app. }
  destruct (Z.leb_spec (ss_slack m + len) 1000); [|discriminate]. injection H as <-.
  eexists _, _. split; [reflexivity|]. split; [reflexivity|]. split; [reflexivity|].
  replace (rc_num c - (rc_old c + len - rc_old c)) with (rc_num c - len) by lia.
  split; [inv_tac|].
  split; [apply (mid_unread p c m u _ M); lia|].
  split; [apply skipn_zlen_lt; lia|].
  unfold rc_seen. cbn [log_ev rc_ev with_pos with_mode]. apply seen_app.
Qed.

Lemma crc_app a b s : crc32c (a ++ b) s = crc32c b (crc32c a s).
Proof. apply fold_left_app. Qed.

Lemma data_loop_ok p ds fuel : forall c total sum k, waits p c -> 0 < zlen (rc_buf c) -> total <= ds ->
  (length (in_bytes (rc_in c)) < fuel)%nat -> k = Z.min (ds - total) (zlen (in_bytes (rc_in c))) ->
  exists c', data_loop fuel c ds total sum [] [] =
      Ret (LDone (total + k) (if rc_checksum c then crc32c (firstn (Z.to_nat k) (in_bytes (rc_in c))) sum else sum) c') /\
    zlen (rc_buf c') = zlen (rc_buf c) /\ in_bytes (rc_in c') = skipn (Z.to_nat k) (in_bytes (rc_in c)) /\
    rc_seen p c' = rc_seen p c ++ map LByte (firstn (Z.to_nat k) (in_bytes (rc_in c))) /\
    waits p c' /\ rc_off c' = rc_off c /\ rc_old c' = rc_old c /\ rc_num c' = rc_num c /\
    rc_version c' = rc_version c /\ rc_checksum c' = rc_checksum c /\ (total = ds -> c' = c).
Proof.
  induction fuel as [|fuel IH]; intros c total sum k W HB Ht Hf Hk; [lia|].
  pose proof (zlen_nonneg (in_bytes (rc_in c))) as Hi.
  cbn [data_loop]. destruct (Z.leb_spec ds total) as [L|L].
  - assert (k = 0) as -> by lia. cbn [Z.to_nat firstn skipn map]. exists c. rewrite Z.add_0_r, app_nil_r.
    split; [destruct (rc_checksum c); reflexivity|]. repeat split; auto.
  - cbn [hd tl].
    destruct (conn_read_ok p c 0 (Z.min (ds - total) (zlen (rc_buf c))) W) as (r & c1 & E & C & Z1 & R); try lia.
    rewrite E. cbn [obind]. destruct C as (C1 & C2 & C3 & C4 & C5 & C6 & C7).
    destruct r as [bs|].
    + destruct R as (R1 & R2 & R3 & R4). pose proof (zlen_nonneg bs) as Hb.
      assert (Lb : 1 <= zlen bs).
      { destruct bs; [congruence|]. rewrite zlen_cons. pose proof (zlen_nonneg bs); lia. }
      assert (Lz : zlen (in_bytes (rc_in c)) = zlen bs + zlen (in_bytes (rc_in c1))) by (rewrite R3; apply zlen_app).
      destruct (IH (log_ev c1 [RWrite bs]) (total + zlen bs)
                  (if rc_checksum c then crc32c bs sum else sum) (k - zlen bs)) as
        (c' & E2 & Z2 & I2 & S2 & W2 & O2 & D2 & N2 & V2 & K2 & _).
      * apply C7. exact W.
      * cbn [log_ev rc_buf]. lia.
      * lia.
      * cbn [log_ev rc_in]. rewrite R3, app_length in Hf. unfold zlen in Lb. lia.
      * cbn [log_ev rc_in]. lia.
      * cbn [log_ev rc_buf rc_in rc_off rc_old rc_num rc_version rc_checksum] in *.
        assert (Hle : zlen bs <= k) by (pose proof (zlen_nonneg (in_bytes (rc_in c1))); lia).
        assert (F : firstn (Z.to_nat k) (in_bytes (rc_in c)) = bs ++ firstn (Z.to_nat (k - zlen bs)) (in_bytes (rc_in c1))).
        { rewrite R3, firstn_app. f_equal.
          - apply firstn_all2. unfold zlen in Hle. lia.
          - f_equal. unfold zlen. lia. }
        assert (G : skipn (Z.to_nat k) (in_bytes (rc_in c)) = skipn (Z.to_nat (k - zlen bs)) (in_bytes (rc_in c1))).
        { rewrite R3, skipn_app. rewrite skipn_all2 by (unfold zlen in Hle; lia). cbn [app].
          f_equal. unfold zlen. lia. }
        exists c'. split.
        { rewrite E2. f_equal. f_equal; [lia|]. rewrite C5, F, crc_app. destruct (rc_checksum c); reflexivity. }
        split; [lia|]. split; [rewrite I2, G; reflexivity|].
        split.
        { rewrite S2, F. unfold rc_seen. cbn [log_ev rc_ev]. rewrite seen_app, C6, map_app.
          cbn [seen flat_map letters]. rewrite app_nil_r, <- app_assoc. reflexivity. }
        split; [exact W2|]. split; [congruence|]. split; [congruence|]. split; [congruence|].
        split; [congruence|]. split; [congruence|]. intros; lia.
    + destruct R as (R1 & R2 & R3).
      assert (k = 0) as -> by (rewrite R1 in Hk; change (zlen (@nil Z)) with 0 in Hk; lia).
      cbn [Z.to_nat firstn skipn map]. exists c1. rewrite Z.add_0_r, app_nil_r.
      split; [destruct (rc_checksum c); reflexivity|]. split; [exact Z1|]. split; [congruence|].
      split; [exact C6|]. split; [apply C7, W|]. split; [exact C1|]. split; [exact C2|]. split; [exact C3|].
      split; [exact C4|]. split; [exact C5|]. intros; lia.
Qed.

Lemma footer_ok p c m b sum u : Inv p c m -> ss_slack m = 0 -> unread c = u -> bytes_ok u ->
  cmd_ok p c u (spec_footer m b sum u) (read_footer p c b sum).
Proof.
  intros I S0 U Hu. destruct (read_min_ok p c m I) as (n & c1 & E & Z1 & S1 & R).
  unfold read_footer, spec_footer. cbv zeta. rewrite E. cbn [obind].
  rewrite U in R. destruct R as [(R1 & R2 & R3)|(R1 & R2 & R4 & M)].
  - destruct (Z.ltb_spec n kMinBufLength) as [_|X]; [|unfold kMinBufLength in X; lia].
    destruct (Z.ltb_spec (zlen u) 256); [|lia].
    apply stop_ok; [exact Z1|discriminate|]. cbn [seen flat_map]. rewrite app_nil_r. exact S1.
  - destruct (Z.ltb_spec n kMinBufLength) as [X|_]; [unfold kMinBufLength in X; lia|].
    destruct (Z.ltb_spec (zlen u) 256); [lia|].
    pose proof (base_max_le _ (md_size _ _ _ _ M)) as [Bm _].
    set (c2 := with_pos c1 (rc_off c1 + 1) n) in *.
    assert (Eold : rc_old c2 = rc_off c1). { pose proof (md_off _ _ _ _ M) as X. cbn [c2 with_pos rc_off] in X. lia. }
    assert (Er : rd (rc_buf c1) (rc_off c1) = rd u 0).
    { rewrite <- (mid_rd p c2 m u 0 M) by (cbn [c2 with_pos rc_num]; lia). rewrite Eold, Z.add_0_r. reflexivity. }
    rewrite Er. destruct u as [|x u0]; [change (zlen (@nil Z)) with 0 in *; lia|]. cbn [rd Z.ltb Z.compare Z.to_nat nth_error].
    change (rd (x :: u0) 0) with (Some x).
    destruct (Z.eqb_spec x FOOTER_CMD) as [Ex|Ex]; cbn [negb].
    2:{ apply stop_ok; [exact Z1|discriminate|]. cbn [seen flat_map]. rewrite app_nil_r. exact S1. }
    set (u := x :: u0) in *. pose proof M as M0. destruct M0.
    rewrite decode_at_eq by (unfold kMaxFooter; lia). rewrite md_off.
    replace (rc_old c2 + kMaxFooter - (rc_old c2 + 1)) with 10 by (unfold kMaxFooter; lia).
    rewrite (mid_slice p c2 m u 1 10 M) by lia.
    destruct (SafeDec_W _ _ SafeDec_Int32 (slice u 1 10) (bytes_ok_slice _ _ _ Hu)) as (y & Ey & Hy).
    unfold decodeFooter in *. rewrite Ey. cbn [obind]. destruct y as [[got rr]|]; cbn [obind].
    2:{ apply stop_ok; [exact Z1|discriminate|]. cbn [seen flat_map]. rewrite app_nil_r. exact S1. }
    destruct (to_i32 sum =? got); cbn [negb].
    2:{ apply stop_ok; [exact Z1|discriminate|]. cbn [seen flat_map]. rewrite app_nil_r. exact S1. }
    destruct (Hy got rr eq_refl) as (_ & used & Hus).
    assert (Lr : zlen rr <= 10).
    { assert (Lx : zlen (slice u 1 10) = 10) by (apply zlen_slice; lia). rewrite Hus, zlen_app in Lx.
      pose proof (zlen_nonneg used). lia. }
    pose proof (zlen_nonneg rr). remember (11 - zlen rr) as len eqn:Elen.
    replace (rc_old c2 + kMaxFooter - zlen rr) with (rc_old c2 + len) by (unfold kMaxFooter; lia).
    eexists _, _. split; [reflexivity|]. split; [exact Z1|]. split; [reflexivity|].
    change (rc_old (with_pos c2 (rc_old c2 + len) n)) with (rc_old c2).
    change n with (rc_num c2) at 2 4.
    replace (rc_num c2 - (rc_old c2 + len - rc_old c2)) with (rc_num c2 - len) by lia.
    pose proof (mid_len _ _ _ _ M).
    split; [inv_tac|].
    split; [apply (mid_unread p c2 m u _ M); lia|].
    split; [apply skipn_zlen_lt; lia|].
    unfold rc_seen in *. cbn [log_ev rc_ev with_pos]. rewrite seen_app. f_equal. exact S1.
Qed.

Lemma cmd_ok_prepend p c ck u u' evs r res :
  zlen (rc_buf ck) = zlen (rc_buf c) -> zlen u' <= zlen u ->
  rc_seen p ck = rc_seen p c ++ seen (kvp p) evs ->
  cmd_ok p ck u' r res -> cmd_ok p c u (prepend evs r) res.
Proof.
  intros HB HU HS (c' & go & E & Z1 & R). exists c', go. split; [exact E|]. split; [congruence|].
  destruct r as [e m rest|e go']; cbn [prepend].
  - destruct R as (-> & I & U & L & S). rewrite seen_app, app_assoc, <- HS. repeat split; auto; try apply I. lia.
  - destruct R as (-> & G & S). rewrite seen_app, app_assoc, <- HS. auto.
Qed.

(** keep_rest after a block: [rem] bytes of the buffer are left at [off]. *)
Lemma keep_rest_ok p c m rem : waits p c -> 0 <= rc_off c -> 0 <= rem -> rc_off c + rem <= zlen (rc_buf c) ->
  kMaxHeader <= zlen (rc_buf c) -> rc_version c = ss_version m -> rc_checksum c = ss_checksum m ->
  ss_slack m = 0 ->
  Inv p (keep_rest c rem) m /\ unread (keep_rest c rem) = slice (rc_buf c) (rc_off c) rem ++ in_bytes (rc_in c) /\
  zlen (rc_buf (keep_rest c rem)) = zlen (rc_buf c) /\ rc_ev (keep_rest c rem) = rc_ev c /\
  rc_checksum (keep_rest c rem) = rc_checksum c /\ rc_waiting (keep_rest c rem) = rc_waiting c.
Proof.
  intros W O R E Sz V K S0. pose proof (base_max_le _ Sz) as [Bm Bp].
  unfold keep_rest. destruct (Z.ltb_spec 0 rem).
  - destruct (Z.ltb_spec rem kMaxHeader); cbn [andb].
    + destruct (Z.ltb_spec (Z.quot (zlen (rc_buf c)) 2) (rc_off c)).
      * assert (Ls : zlen (slice (rc_buf c) (rc_off c) rem) = rem) by (apply zlen_slice; lia).
        assert (Lb : zlen (splice (rc_buf c) 0 (slice (rc_buf c) (rc_off c) rem)) = zlen (rc_buf c))
          by (apply zlen_splice; lia).
        split; [inv_tac; rewrite ?Lb; lia|].
        split.
        { unfold unread, from. cbn [with_pos with_buf rc_buf rc_off rc_num rc_in].
          rewrite <- Ls at 2. rewrite slice_splice by lia. reflexivity. }
        split; [exact Lb|]. repeat split; reflexivity.
      * split; [inv_tac|].
        { unfold base_max in *. lia. }
        repeat split; reflexivity.
    + split; [inv_tac|].
      { unfold base_max in *. lia. }
      repeat split; reflexivity.
  - assert (rem = 0) as -> by lia.
    split; [inv_tac|]. repeat split; reflexivity.
Qed.

Lemma firstn_app_zlen (a b : list Z) k : zlen a <= k -> firstn (Z.to_nat k) (a ++ b) = a ++ firstn (Z.to_nat (k - zlen a)) b.
Proof.
  intros H. rewrite firstn_app. f_equal; [apply firstn_all2; unfold zlen in H; lia|f_equal; unfold zlen; lia].
Qed.
Lemma skipn_app_zlen (a b : list Z) k : zlen a <= k -> skipn (Z.to_nat k) (a ++ b) = skipn (Z.to_nat (k - zlen a)) b.
Proof.
  intros H. rewrite skipn_app. rewrite skipn_all2 by (unfold zlen in H; lia). cbn [app]. f_equal. unfold zlen; lia.
Qed.
Lemma map_LByte_seen kv bs : map LByte bs = seen kv [RWrite bs].
Proof. cbn. rewrite app_nil_r. reflexivity. Qed.

Lemma finish_ok p c m b sum u' data : Inv p c m -> ss_slack m = 0 -> unread c = u' -> bytes_ok u' ->
  (ss_checksum m = true -> sum = crc32c data 0) ->
  exists c' go, finish_block p c b sum = Ret (c', go) /\ zlen (rc_buf c') = zlen (rc_buf c) /\
  match (if ss_checksum m then spec_footer m b (crc32c data 0) u'
       else SNext (if rp_tags p then [] else [RVerified b])
              {| ss_version := ss_version m; ss_checksum := ss_checksum m; ss_slack := 0 |} u') with
  | SNext evs m' rest =>
      go = GoRead /\ Inv p c' m' /\ unread c' = rest /\ zlen rest <= zlen u' /\
      rc_seen p c' = rc_seen p c ++ seen (kvp p) evs
  | SStop evs go' => go = go' /\ go <> GoRead /\ rc_seen p c' = rc_seen p c ++ seen (kvp p) evs
  end.
Proof.
  intros I S0 U Hu Hs. unfold finish_block. rewrite (iv_checksum _ _ _ I).
  destruct (ss_checksum m) eqn:K.
  - rewrite (Hs eq_refl).
    destruct (footer_ok p c m b (crc32c data 0) u' I S0 U Hu) as (c' & go & E & Z1 & R).
    exists c', go. split; [exact E|]. split; [exact Z1|].
    destruct (spec_footer m b (crc32c data 0) u'); [|exact R].
    destruct R as (R1 & R2 & R3 & R4 & R5). repeat split; auto; try apply R2. lia.
  - assert (I' : forall c', waits p c' -> rc_buf c' = rc_buf c -> rc_off c' = rc_off c -> rc_num c' = rc_num c ->
       rc_version c' = rc_version c -> rc_checksum c' = rc_checksum c ->
       Inv p c' {| ss_version := ss_version m; ss_checksum := false; ss_slack := 0 |}).
    { intros c' Wc A1 A2 A3 A4 A5. destruct I. constructor; cbn [ss_slack ss_version ss_checksum];
        rewrite ?A1, ?A2, ?A3, ?A4, ?A5; auto; try lia. congruence. }
    destruct (rp_tags p) eqn:T.
    + eexists _, _. split; [reflexivity|]. split; [reflexivity|]. split; [reflexivity|].
      split; [apply I'; try reflexivity; intros X; congruence|].
      split; [exact U|]. split; [lia|]. cbn [seen flat_map]. rewrite app_nil_r. reflexivity.
    + eexists _, _. split; [reflexivity|]. split; [reflexivity|]. split; [reflexivity|].
      split; [apply I'; try reflexivity; apply I|].
      split; [exact U|]. split; [lia|]. unfold rc_seen. cbn [log_ev rc_ev]. apply seen_app.
Qed.

Lemma block_ok p c m u h b : Mid p c m u -> bytes_ok u -> 1 <= h <= rc_num c -> 0 <= bd_dataSize b ->
  cmd_ok p c u (spec_block p m b (skipn (Z.to_nat h) u))
    (receive_block p fenv_ok (with_pos c (rc_old c + h) (rc_num c)) b).
Proof.
  intros M Hu Hh Hd. pose proof (mid_len _ _ _ _ M) as Lu. pose proof (base_max_le _ (md_size _ _ _ _ M)) as [Bm Bp].
  pose proof (mid_unread p c m u h M ltac:(lia)) as Uh. pose proof M as M0. destruct M0.
  set (u1 := skipn (Z.to_nat h) u) in *.
  assert (Hu1 : bytes_ok u1) by (apply bytes_ok_skipn, Hu).
  assert (Lu1 : zlen u1 = zlen u - h) by (apply zlen_skipn; lia).
  unfold receive_block. cbv zeta.
  cbn [fenv_ok fe_open fe_writes fe_sync fe_close fe_abort negb hd tl].
  rewrite andb_false_r. cbn [log_ev with_pos rc_num rc_old rc_off rc_buf rc_checksum rc_in].
  set (rem := rc_num c + rc_old c - (rc_old c + h)).
  assert (Hrem : rem = rc_num c - h) by (unfold rem; lia). clearbody rem.
  destruct (Z.ltb_spec rem 0); [lia|].
  set (tw := if bd_dataSize b <=? rem then bd_dataSize b else rem).
  assert (Htw : tw = Z.min (bd_dataSize b) rem) by (unfold tw; destruct (Z.leb_spec (bd_dataSize b) rem); lia).
  clearbody tw.
  destruct (Z.ltb_spec tw 0); [lia|]. destruct (Z.ltb_spec (rc_old c + h) 0); [lia|]. cbn [orb].
  destruct (Z.ltb_spec (zlen (rc_buf c)) (rc_old c + h + tw)); [lia|].
  rewrite andb_false_r.
  set (bs := slice (rc_buf c) (rc_old c + h) tw).
  assert (Lbs : zlen bs = tw) by (apply zlen_slice; lia).
  assert (Fbs : bs = firstn (Z.to_nat tw) u1).
  { unfold bs. rewrite <- Uh. unfold from. apply view_take; lia. }
  set (ins := in_bytes (rc_in c)) in *.
  assert (Eu1 : u1 = slice (rc_buf c) (rc_old c + h) rem ++ ins).
  { rewrite <- Uh. unfold from. rewrite Hrem. reflexivity. }
  replace (if 0 <? tw then [] else @nil bool) with (@nil bool) by (destruct (0 <? tw); reflexivity).
  match goal with |- context[data_loop _ (with_pos ?x _ _)] => set (c1 := x) end.
  assert (Hc1 : zlen (rc_buf c1) = zlen (rc_buf c) /\ rc_buf c1 = rc_buf c /\ rc_in c1 = rc_in c /\ rc_old c1 = rc_old c /\
     rc_off c1 = rc_old c + h /\ rc_num c1 = rc_num c /\ rc_version c1 = rc_version c /\
     rc_checksum c1 = rc_checksum c /\ waits p c1 /\ rc_seen p c1 = rc_seen p c ++ LEv (RHeader b) :: map LByte bs).
  { unfold c1. destruct (Z.ltb_spec 0 tw).
    - repeat split; auto. unfold rc_seen. cbn [log_ev with_pos rc_ev]. rewrite !seen_app, <- app_assoc.
      cbn [seen flat_map letters app]. rewrite app_nil_r. reflexivity.
    - repeat split; auto. assert (tw = 0) as -> by lia. unfold rc_seen. cbn [log_ev with_pos rc_ev].
      rewrite seen_app. f_equal. }
  destruct Hc1 as (A1 & A2 & A3 & A4 & A5 & A6 & A7 & A8 & A9 & A10). clearbody c1.
  remember (Z.min (bd_dataSize b - tw) (zlen ins)) as k eqn:Hk.
  assert (Hins : zlen u1 = rem + zlen ins) by (rewrite Eu1, zlen_app, zlen_slice; lia).
  pose proof (zlen_nonneg ins) as Hin0.
  match goal with |- context[data_loop _ (with_pos c1 ?o ?n) _ _ ?sm _ _] =>
    destruct (data_loop_ok p (bd_dataSize b) (S (length (in_bytes (rc_in c1)))) (with_pos c1 o n) tw sm k) as
      (c2 & E2 & Z2 & I2 & S2 & W2 & O2 & D2 & N2 & V2 & K2 & Q2) end; auto.
  { cbn [with_pos rc_buf]. unfold kMaxHeader, PATH_MAX in *. lia. }
  { lia. }
  { cbn [with_pos rc_in]. rewrite A3. exact Hk. }
  cbn [with_pos rc_in rc_buf rc_off rc_old rc_num rc_version rc_checksum] in *.
  rewrite E2. cbn [obind negb]. rewrite A3 in *. fold ins in E2, I2, S2 |- *.
  assert (Sw : rc_seen p c2 = rc_seen p c ++ LEv (RHeader b) :: map LByte (firstn (Z.to_nat (tw + k)) u1)).
  { rewrite S2. change (rc_seen p (with_pos c1 (rc_off c1 + tw) (rc_num c1))) with (rc_seen p c1).
    rewrite A10, <- app_assoc. cbn [app]. f_equal. f_equal. rewrite <- map_app. f_equal.
    destruct (Z.eq_dec tw rem) as [Et|Et].
    - rewrite Eu1. rewrite firstn_app_zlen by (rewrite zlen_slice; lia). rewrite zlen_slice by lia.
      unfold bs. rewrite Et. do 3 f_equal. lia.
    - assert (k = 0) as -> by lia. rewrite Z.add_0_r. cbn [Z.to_nat firstn]. rewrite app_nil_r. exact Fbs. }
  unfold spec_block. destruct (Z.leb_spec (bd_dataSize b) (zlen u1)) as [L|L].
  - assert (Ek : tw + k = bd_dataSize b) by lia.
    rewrite Ek, Z.eqb_refl. cbn [negb]. rewrite Ek in Sw.
    set (m0 := {| ss_version := ss_version m; ss_checksum := ss_checksum m; ss_slack := 0 |}).
    set (data := firstn (Z.to_nat (bd_dataSize b)) u1) in *.
    destruct (keep_rest_ok p (log_ev c2 [RStored]) m0 (rem - tw)) as (B1 & B2 & B3 & B4 & B5 & B6);
      cbn [log_ev rc_buf rc_off rc_in rc_version rc_checksum m0 ss_version ss_checksum ss_slack rc_ev rc_waiting] in *;
      auto; try lia; try congruence.
    assert (Br : slice (rc_buf c2) (rc_off c2) (rem - tw) ++ in_bytes (rc_in c2) = skipn (Z.to_nat (bd_dataSize b)) u1).
    { destruct (Z.eq_dec tw rem) as [Et|Et].
      - replace (rem - tw) with 0 by lia. cbn [slice Z.to_nat firstn app]. unfold slice. cbn [Z.to_nat firstn app].
        rewrite I2, Eu1. rewrite skipn_app_zlen by (rewrite zlen_slice; lia). rewrite zlen_slice by lia.
        do 2 f_equal. lia.
      - assert (tw = bd_dataSize b) as Etd by lia. rewrite (Q2 Etd). cbn [with_pos rc_buf rc_off rc_in].
        rewrite A2, A5, A3. fold ins. rewrite view_skip by lia.
        rewrite <- Etd. rewrite <- Eu1. reflexivity. }
    rewrite Br in B2.
    destruct (finish_ok p (keep_rest (log_ev c2 [RStored]) (rem - tw)) m0 b
                (if rc_checksum c1 then crc32c (firstn (Z.to_nat k) ins)
                   (if rc_checksum c then crc32c bs 0 else 0) else if rc_checksum c then crc32c bs 0 else 0)
                (skipn (Z.to_nat (bd_dataSize b)) u1) data) as (c' & go & E & Z' & R); auto.
    { apply bytes_ok_skipn; exact Hu1. }
    { intros Kc. cbn [m0 ss_checksum] in Kc. rewrite A8, md_checksum, Kc. rewrite <- crc_app. f_equal.
      unfold data. destruct (Z.eq_dec tw rem) as [Et|Et].
      - rewrite Eu1. rewrite firstn_app_zlen by (rewrite zlen_slice; lia). rewrite zlen_slice by lia.
        unfold bs. rewrite Et. do 3 f_equal. lia.
      - assert (k = 0) as -> by lia. cbn [Z.to_nat firstn]. rewrite app_nil_r, Fbs. do 2 f_equal. lia. }
    exists c', go. split; [exact E|]. split; [lia|].
    assert (Sk : rc_seen p (keep_rest (log_ev c2 [RStored]) (rem - tw)) =
       rc_seen p c ++ seen (kvp p) [RHeader b; RWrite data; RStored]).
    { unfold rc_seen in *. rewrite B4, seen_app, Sw, <- app_assoc. f_equal. }
    assert (Lr : zlen (skipn (Z.to_nat (bd_dataSize b)) u1) < zlen u) by (rewrite zlen_skipn; lia).
    cbn [m0 ss_version ss_checksum ss_slack] in R.
    change (spec_footer m b) with (spec_footer m0 b).
    set (sr := if ss_checksum m then spec_footer m0 b (crc32c data 0) (skipn (Z.to_nat (bd_dataSize b)) u1)
        else SNext (if rp_tags p then [] else [RVerified b]) m0 (skipn (Z.to_nat (bd_dataSize b)) u1)) in *.
    change (match sr with
      | SNext evs m' rest => go = GoRead /\ Inv p c' m' /\ unread c' = rest /\
         zlen rest <= zlen (skipn (Z.to_nat (bd_dataSize b)) u1) /\
         rc_seen p c' = rc_seen p (keep_rest (log_ev c2 [RStored]) (rem - tw)) ++ seen (kvp p) evs
      | SStop evs go' => go = go' /\ go <> GoRead /\
         rc_seen p c' = rc_seen p (keep_rest (log_ev c2 [RStored]) (rem - tw)) ++ seen (kvp p) evs end) in R.
    destruct sr as [e m' rest|e go']; cbn [prepend].
    + destruct R as (R1 & R2 & R3 & R4 & R5). rewrite seen_app, app_assoc, <- Sk.
      split; [exact R1|]. split; [exact R2|]. split; [exact R3|]. split; [lia|exact R5].
    + destruct R as (R1 & R2 & R3). rewrite seen_app, app_assoc, <- Sk. auto.
  - assert (Ek : tw + k = zlen u1) by lia. rewrite Ek.
    destruct (Z.eqb_spec (zlen u1) (bd_dataSize b)); [lia|]. cbn [negb].
    assert (Ef : firstn (Z.to_nat (zlen u1)) u1 = u1) by (unfold zlen; rewrite Nat2Z.id; apply firstn_all).
    rewrite Ek, Ef in Sw. unfold guard_partial. rewrite K2, A8, md_checksum.
    apply stop_ok; [|discriminate|].
    + destruct (negb (rp_tags p) && negb (ss_checksum m)); cbn [log_ev rc_buf]; lia.
    + unfold rc_seen in *. destruct (negb (rp_tags p) && negb (ss_checksum m)); cbn [log_ev rc_ev].
      * rewrite seen_app, Sw, <- app_assoc. reflexivity.
      * rewrite Sw. cbn [seen flat_map letters app]. rewrite app_nil_r. reflexivity.
Qed.

Lemma file_ok p c m u r : Mid p c m u -> bytes_ok u -> spec_file p m u = Some r ->
  cmd_ok p c u r (processFileCmd p fenv_ok c).
Proof.
  intros M Hu H. pose proof (mid_len _ _ _ _ M) as Lu. pose proof (base_max_le _ (md_size _ _ _ _ M)) as [Bm _].
  pose proof M as M0. destruct M0. unfold processFileCmd, spec_file in *.
  rewrite md_off.
  replace (rc_old c + 1 + 1) with (rc_old c + 2) by lia.
  replace (rc_old c + 1 + 2) with (rc_old c + 3) by lia.
  rewrite (mid_rd p c m u 1 M), (mid_rd p c m u 2 M), (mid_rd p c m u 3 M) by lia.
  destruct (rd_in u 1 ltac:(lia)) as (b1 & E1). destruct (rd_in u 2 ltac:(lia)) as (b2 & E2).
  destruct (rd_in u 3 ltac:(lia)) as (b3 & E3). rewrite E1, E2, E3 in *.
  set (h := int16_le b2 b3) in *. clearbody h.
  destruct (Z.leb_spec h 0) as [H0|H0].
  { injection H as <-. apply stop0; try reflexivity. discriminate. }
  destruct (Z.ltb_spec 256 h) as [H1|H1]; [discriminate|].
  destruct (Z.ltb_spec (rc_num c) h); [lia|]. cbn [obind].
  destruct (Z.ltb_spec (rc_num c) h); [lia|].
  cbn [with_pos rc_off rc_old rc_buf rc_version]. rewrite md_off.
  replace (rc_old c + 1 + 3) with (rc_old c + 4) by lia.
  rewrite decode_at_eq by lia.
  replace (rc_num c + rc_old c - (rc_old c + 4)) with (rc_num c - 4) by lia.
  rewrite (mid_slice p c m u 4 (rc_num c - 4) M) by lia. rewrite md_version.
  destruct (SafeDec_Header (ss_version m) (slice u 4 (rc_num c - 4)) (bytes_ok_slice _ _ _ Hu)) as (x & Ex & Hx).
  rewrite Ex. cbn [obind].
  set (D := decodeHeader (ss_version m)) in *.
  (* what the stream says about the header *)
  destruct x as [[b rr]|]; cbn [obind].
  - destruct (Local_Header (ss_version m) _ _ _ Ex) as (used & Eu & Du). fold D in Du.
    destruct (Hx b rr eq_refl) as ((_ & _ & Hds & _) & _). unfold in_nat63 in Hds.
    assert (Lz : zlen used + zlen rr = rc_num c - 4).
    { rewrite <- zlen_app, <- Eu. apply zlen_slice; lia. }
    pose proof (zlen_nonneg rr). pose proof (zlen_nonneg used).
    cbn [with_pos rc_old].
    destruct (Z.eqb_spec h (rc_num c + rc_old c - zlen rr - rc_old c)) as [Eh|Eh]; cbn [negb].
    + assert (Hu4 : slice u 4 (h - 4) = used).
      { assert (Ez : rc_num c - 4 = (h - 4) + (rc_num c - h)) by lia.
        rewrite Ez, slice_app_split in Eu by lia.
        assert (La : zlen (slice u 4 (h - 4)) = zlen used) by (rewrite zlen_slice; lia).
        apply (f_equal (firstn (Z.to_nat (zlen used)))) in Eu.
        rewrite <- La in Eu at 1. rewrite !firstn_zlen_app in Eu. exact Eu. }
      rewrite Hu4 in H. pose proof (Du []) as Dn. rewrite app_nil_r in Dn. rewrite Dn in H.
      destruct (Z.ltb_spec h 4); [lia|].
      destruct ((bd_alloc b =? TO_BE_DELETED) && (negb (bd_fileSize b =? 0) || negb (bd_dataSize b =? 0))).
      { injection H as <-. apply stop0; try reflexivity. discriminate. }
      injection H as <-.
      replace (rc_num c + rc_old c - zlen rr) with (rc_old c + h) by lia.
      change (with_pos (with_pos (with_pos c (rc_old c + 4) (rc_num c)) (rc_old c + h) (rc_num c)))
        with (with_pos (with_pos c (rc_old c + 4) (rc_num c)) (rc_old c + h)).
      apply (block_ok p c m u h b M Hu); lia.
    + assert (Hr : r = SStop [] (GoFinish PROTOCOL_ERROR)).
      { destruct (D (slice u 4 (h - 4))) as [[[b' [|y rr']]|]| |] eqn:Ed; try congruence.
        destruct (Z.ltb_spec h 4) as [Hh4|Hh4]; [congruence|].
        exfalso. destruct (Local_Header (ss_version m) _ _ _ Ed) as (used' & Eu' & Du'). fold D in Du'.
        rewrite app_nil_r in Eu'.
        assert (Ez : rc_num c - 4 = (h - 4) + (rc_num c - h)) by lia.
        rewrite Ez, slice_app_split in Ex by lia. rewrite Eu' in Ex. rewrite (Du' _) in Ex.
        replace (4 + (h - 4)) with h in Ex by lia.
        injection Ex as -> Err. apply (f_equal zlen) in Err. rewrite zlen_slice in Err by lia. lia. }
      rewrite Hr. apply stop0; try reflexivity. discriminate.
  - assert (Hr : r = SStop [] (GoFinish PROTOCOL_ERROR)).
    { destruct (D (slice u 4 (h - 4))) as [[[b' [|y rr']]|]| |] eqn:Ed; try congruence.
      destruct (Z.ltb_spec h 4) as [Hh4|Hh4]; [congruence|].
      exfalso. destruct (Local_Header (ss_version m) _ _ _ Ed) as (used' & Eu' & Du'). fold D in Du'.
      rewrite app_nil_r in Eu'.
      assert (Ez : rc_num c - 4 = (h - 4) + (rc_num c - h)) by lia.
      rewrite Ez, slice_app_split in Ex by lia. rewrite Eu' in Ex. rewrite (Du' _) in Ex. discriminate. }
    rewrite Hr. apply stop0; try reflexivity. discriminate.
Qed.

Lemma do_cmd_ok p c m u r : Inv p c m -> unread c = u -> bytes_ok u -> spec_cmd p m u = Some r ->
  cmd_ok p c u r (do_cmd p fenv_ok c).
Proof.
  intros I U Hu H. destruct (read_min_ok p c m I) as (n & c1 & E & Z1 & S1 & R).
  unfold do_cmd, readNextCmd, spec_cmd in *. cbv zeta. rewrite E. cbn [obind].
  rewrite U in R. destruct R as [(R1 & R2 & R3)|(R1 & R2 & R4 & M)].
  - destruct (Z.ltb_spec n kMinBufLength) as [_|X]; [|unfold kMinBufLength in X; lia].
    destruct (Z.ltb_spec (zlen u) 256); [|lia]. injection H as <-. cbn [obind snd].
    apply stop_ok; [exact Z1|discriminate|]. cbn [seen flat_map]. rewrite app_nil_r. exact S1.
  - destruct (Z.ltb_spec n kMinBufLength) as [X|_]; [unfold kMinBufLength in X; lia|].
    destruct (Z.ltb_spec (zlen u) 256); [lia|].
    set (c2 := with_pos c1 (rc_off c1 + 1) n) in *.
    assert (Eold : rc_old c2 = rc_off c1). { pose proof (md_off _ _ _ _ M) as X. cbn [c2 with_pos rc_off] in X. lia. }
    assert (Er : rd (rc_buf c1) (rc_off c1) = rd u 0).
    { rewrite <- (mid_rd p c2 m u 0 M) by (cbn [c2 with_pos rc_num]; lia). rewrite Eold, Z.add_0_r. reflexivity. }
    rewrite Er. destruct u as [|x u0]; [change (zlen (@nil Z)) with 0 in *; lia|].
    change (rd (x :: u0) 0) with (Some x). set (u := x :: u0) in *.
    assert (T : forall res r0, cmd_ok p c2 u r0 res -> cmd_ok p c u r0 res).
    { intros res r0 (c' & go & A1 & A2 & A3). exists c', go. split; [exact A1|]. split; [rewrite A2; exact Z1|].
      change (rc_seen p c2) with (rc_seen p c1) in A3. rewrite S1 in A3. exact A3. }
    apply T.
    destruct (x =? DONE_CMD); [cbn [obind snd fst]; eapply done_ok; eassumption|].
    destruct (x =? FILE_CMD); [cbn [obind snd fst]; eapply file_ok; eassumption|].
    destruct (x =? SETTINGS_CMD); [cbn [obind snd fst]; eapply settings_cmd_ok; eassumption|].
    destruct (x =? SIZE_CMD); [cbn [obind snd fst]; eapply size_ok; eassumption|].
    injection H as <-. cbn [obind snd fst]. apply stop0; try reflexivity. discriminate.
Qed.

Lemma suffix_ok (p : rparams) m u evs m' rest : bytes_ok u -> spec_cmd p m u = Some (SNext evs m' rest) -> bytes_ok rest.
Proof.
  intros Hu H. unfold spec_cmd in H. destruct (zlen u <? 256); [discriminate|].
  destruct u as [|x u0]; [discriminate|]. set (u := x :: u0) in *.
  assert (Hs : forall k, bytes_ok (skipn k u)) by (intros; apply bytes_ok_skipn; exact Hu).
  destruct (x =? DONE_CMD).
  { unfold spec_done in H. destruct (zlen u =? 256); [|discriminate].
    destruct (rd u 1); [|discriminate]. destruct (decodeDone _ _ _) as [[[]|]| |]; discriminate. }
  destruct (x =? FILE_CMD).
  { unfold spec_file in H. destruct (rd u 2); [|discriminate]. destruct (rd u 3); [|discriminate].
    destruct (_ <=? 0); [discriminate|]. destruct (256 <? _); [discriminate|].
    destruct (decodeHeader _ _) as [[[b [|]]|]| |]; try discriminate.
    destruct (_ <? 4); [discriminate|]. destruct (_ && _); [discriminate|]. injection H as H.
    unfold spec_block in H. destruct (_ <=? _); [|discriminate].
    destruct (ss_checksum m).
    - unfold spec_footer in H. destruct (_ <? 256); [discriminate|].
      match type of H with context[match ?l with [] => _ | _ => _ end] => destruct l eqn:El end; [discriminate|].
      destruct (_ =? FOOTER_CMD); [|discriminate].
      destruct (decodeFooter _) as [[[got rr]|]| |]; try discriminate.
      destruct (_ =? got); [|discriminate]. injection H as _ _ <-.
      apply bytes_ok_skipn. rewrite <- El. apply bytes_ok_skipn, Hs.
    - injection H as _ _ <-. apply bytes_ok_skipn, Hs. }
  destruct (x =? SETTINGS_CMD).
  { unfold spec_settings in H. destruct (decodeVersion _) as [[[sv rr]|]| |]; try discriminate.
    destruct (settings_version _ _); [discriminate|].
    destruct (decodeSettings_body _ _) as [[[s r2]|]| |]; try discriminate.
    destruct (list_eq_dec _ _ _); [|discriminate]. destruct (st_sendFileChunks s); [discriminate|].
    destruct (_ <=? 1000); [|discriminate]. injection H as _ _ <-. apply Hs. }
  destruct (x =? SIZE_CMD); [|discriminate].
  unfold spec_size in H. destruct (decodeSize _) as [[[sv rr]|]| |]; try discriminate.
  destruct (_ <=? 1000); [|discriminate]. injection H as _ _ <-. apply Hs.
Qed.

Theorem run_ok p m u evs go : spec_stream p m u evs go -> bytes_ok u ->
  forall c fuel, Inv p c m -> unread c = u -> (length u <= fuel)%nat ->
  exists c', run_conn fuel p [] c = Ret (c', go) /\ zlen (rc_buf c') = zlen (rc_buf c) /\
    rc_seen p c' = rc_seen p c ++ seen (kvp p) evs.
Proof.
  induction 1 as [m u evs go H|m u evs m' rest evs' go H H' IH]; intros Hu c fuel I U Hf.
  - destruct (do_cmd_ok p c m u _ I U Hu H) as (c' & g & E & Z1 & <- & G & S).
    exists c'. split; [|auto]. destruct fuel; cbn [run_conn hd]; rewrite E; cbn [obind snd fst];
      destruct g; auto; congruence.
  - destruct (do_cmd_ok p c m u _ I U Hu H) as (c' & g & E & Z1 & -> & I' & U' & L & S).
    destruct fuel as [|fuel]; [unfold zlen in L; lia|].
    destruct (IH (suffix_ok _ _ _ _ _ _ Hu H) c' fuel I' U') as (c'' & E2 & Z2 & S2).
    { unfold zlen in L. lia. }
    exists c''. cbn [run_conn hd tl]. rewrite E. cbn [obind snd fst]. split; [exact E2|]. split; [congruence|].
    rewrite S2, S, seen_app, app_assoc. reflexivity.
Qed.

Theorem run_fresh p v sum u evs go : spec_stream p {| ss_version := v; ss_checksum := sum; ss_slack := 0 |} u evs go ->
  bytes_ok u -> forall buf l, kMaxHeader <= zlen buf -> in_bytes l = u ->
  exists c', run_conn (length u) p [] (fresh_conn buf l v sum) = Ret (c', go) /\
    zlen (rc_buf c') = zlen buf /\ seen (kvp p) (rc_ev c') = seen (kvp p) evs.
Proof.
  intros H Hu buf l HB <-.
  destruct (run_ok p _ _ _ _ H Hu (fresh_conn buf l v sum) (length (in_bytes l))) as (c' & E & Z1 & S).
  - pose proof (base_max_le _ HB) as [Bm Bp]. unfold kMaxHeader, PATH_MAX in HB.
    constructor; cbn [fresh_conn rc_off rc_num rc_buf rc_version rc_checksum ss_slack ss_version ss_checksum]; auto; try lia.
    intros _; reflexivity.
  - reflexivity.
  - lia.
  - exists c'. auto.
Qed.
Lemma run_fresh_returns p v sum u evs go :
  spec_stream p {| ss_version := v; ss_checksum := sum; ss_slack := 0 |} u evs go -> bytes_ok u ->
  forall buf l, kMaxHeader <= zlen buf -> in_bytes l = u ->
  exists c, run_conn (length u) p [] (fresh_conn buf l v sum) = Ret (c, go).
Proof.
  intros Hs Hu buf l HB Hl. destruct (run_fresh p v sum u evs go Hs Hu buf l HB Hl) as (c & E & _). exists c. exact E.
Qed.
