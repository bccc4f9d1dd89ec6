(** The receive buffer on arbitrary traffic. *)
From Verif Require Import Model.RecvConn Spec.CodecSpec Spec.BufferSpec Proofs.BytesFacts Proofs.VarintFacts
  Proofs.ProtocolCodecFacts Proofs.LocalDecFacts Proofs.RecvFacts Proofs.RecvCmdFacts.

Local Opaque Z.pow Z.quot.

Definition clean (c : rconn) : Prop := bytes_ok (rc_buf c) /\ bytes_ok (in_bytes (rc_in c)).
Definition left_in (c : rconn) : Z := zlen (in_bytes (rc_in c)).
(** Only buffer contents, arrivals, waiting list and record differ. *)
Definition held (c c' : rconn) : Prop :=
  rc_off c' = rc_off c /\ rc_old c' = rc_old c /\ rc_num c' = rc_num c /\ zlen (rc_buf c') = zlen (rc_buf c).
Lemma held_refl c : held c c.
Proof. repeat split. Qed.
Lemma held_trans a b c : held a b -> held b c -> held a c.
Proof. unfold held; intuition congruence. Qed.

Lemma bytes_ok_splice (l bs : list Z) pos : 0 <= pos -> pos + zlen bs <= zlen l ->
  bytes_ok l -> bytes_ok bs -> bytes_ok (splice l pos bs).
Proof.
  intros H1 H2 Hl Hb. unfold bytes_ok. apply Forall_forall. intros x Hx.
  apply In_nth_error in Hx as (n & Hn).
  assert (R : rd (splice l pos bs) (Z.of_nat n) = Some x).
  { unfold rd. destruct (Z.ltb_spec (Z.of_nat n) 0); [lia|]. rewrite Nat2Z.id. exact Hn. }
  rewrite rd_splice in R by lia.
  assert (G : forall (m : list Z) i, bytes_ok m -> rd m i = Some x -> is_byte x).
  { intros m i Hm E. unfold rd in E. destruct (i <? 0); [discriminate|].
    apply nth_error_In in E. unfold bytes_ok in Hm. rewrite Forall_forall in Hm. apply Hm, E. }
  destruct (_ && _); eapply G; [|exact R| |exact R]; assumption.
Qed.

Lemma sock_read_held max l : forall c, 0 < max ->
  let '(r, c') := sock_read l max c in
  held c c' /\ rc_buf c' = rc_buf c /\
  match r with
  | None => in_bytes l = [] /\ in_bytes (rc_in c') = []
  | Some bs => bs <> [] /\ zlen bs <= max /\ in_bytes l = bs ++ in_bytes (rc_in c')
  end.
Proof.
  induction l as [|[bs|] r IH]; intros c Hm.
  - cbn. repeat split.
  - destruct bs as [|b bs]; [apply (IH c Hm)|]. cbn [sock_read in_bytes].
    destruct (Z.leb_spec (zlen (b :: bs)) max) as [L|L].
    + split; [repeat split|]. split; [reflexivity|]. split; [discriminate|]. split; [lia|reflexivity].
    + split; [repeat split|]. split; [reflexivity|]. cbn [with_in rc_in in_bytes].
      split; [destruct (Z.to_nat max) eqn:E; [lia|discriminate]|].
      split; [rewrite zlen_firstn by lia; lia|]. rewrite app_assoc, firstn_skipn. reflexivity.
  - cbn [sock_read in_bytes]. specialize (IH (on_tag c) Hm).
    destruct (sock_read r max (on_tag c)) as [rr c']. exact IH.
Qed.
Lemma conn_read_held c pos max : 0 <= pos -> 0 < max -> pos + max <= zlen (rc_buf c) -> clean c ->
  exists r c', conn_read c pos max = Ret (r, c') /\ held c c' /\ clean c' /\
  match r with
  | None => left_in c' = left_in c
  | Some bs => 1 <= zlen bs <= max /\ left_in c = zlen bs + left_in c'
  end.
Proof.
  intros Hp Hm Hb [C1 C2]. unfold conn_read.
  destruct (Z.leb_spec max 0); [lia|]. destruct (Z.ltb_spec pos 0); [lia|].
  destruct (Z.ltb_spec (zlen (rc_buf c)) (pos + max)); [lia|]. cbn [orb].
  pose proof (sock_read_held max (rc_in c) c Hm) as S.
  destruct (sock_read (rc_in c) max c) as [[bs|] c'].
  - destruct S as (S1 & S2 & S3 & S4 & S5). eexists _, _. split; [reflexivity|].
    rewrite S5 in C2. apply bytes_ok_app in C2 as [C2 C3].
    assert (Lb : 1 <= zlen bs).
    { destruct bs; [congruence|]. rewrite zlen_cons. pose proof (zlen_nonneg bs); lia. }
    split. { destruct S1 as (A1 & A2 & A3 & A4). repeat split; auto. cbn [with_buf rc_buf]. rewrite zlen_splice by lia. exact A4. }
    split. { split; [|exact C3]. cbn [with_buf rc_buf]. rewrite S2. apply bytes_ok_splice; auto; lia. }
    split; [lia|]. unfold left_in. cbn [with_buf rc_in]. rewrite S5, zlen_app. lia.
  - destruct S as (S1 & S2 & S3 & S4). eexists _, _. split; [reflexivity|]. split; [exact S1|].
    split; [split; [rewrite S2; exact C1|rewrite S4; constructor]|]. unfold left_in. rewrite S3, S4. reflexivity.
Qed.
Lemma ral_loop_held fail base max atLeast fuel : forall c len,
  0 <= base -> 0 <= len -> base + max <= zlen (rc_buf c) -> atLeast <= max -> len <= max -> clean c ->
  left_in c < Z.of_nat fuel ->
  exists n c', ral_loop fuel fail c base max atLeast len = Ret (n, c') /\ held c c' /\ clean c' /\
    n <= max /\ (atLeast <= n -> n + left_in c' = len + left_in c).
Proof.
  induction fuel as [|fuel IH]; intros c len Hb Hl HB Ha Hm Hc Hf;
    [pose proof (zlen_nonneg (in_bytes (rc_in c))); unfold left_in in Hf; lia|].
  cbn [ral_loop]. destruct (Z.leb_spec atLeast len) as [L|L].
  - eexists _, _. split; [reflexivity|]. split; [apply held_refl|]. repeat split; auto; apply Hc.
  - destruct (conn_read_held c (base + len) (max - len)) as (r & c' & E & H1 & H2 & R); try lia; [exact Hc|].
    rewrite E. cbn [obind]. destruct r as [bs|].
    + destruct H1 as (A1 & A2 & A3 & A4).
      destruct (IH c' (len + zlen bs)) as (n & c'' & E2 & G1 & G2 & G3 & G4); try lia; [exact H2|].
      exists n, c''. split; [exact E2|]. split; [eapply held_trans; [|exact G1]; repeat split; auto|].
      split; [exact G2|]. split; [exact G3|]. lia.
    + eexists _, _. split; [reflexivity|]. split; [exact H1|]. split; [exact H2|].
      destruct (fail && (len =? 0)); split; lia.
Qed.
Lemma readAtLeast_held p c base atLeast len : 0 <= base -> base + len <= zlen (rc_buf c) -> clean c ->
  match readAtLeast p c base (zlen (rc_buf c) - base) atLeast len with
  | Ret (n, c') => held c c' /\ clean c' /\ n <= zlen (rc_buf c) - base /\ 0 < atLeast /\ 0 <= len /\
      (atLeast <= n -> n + left_in c' = len + left_in c)
  | Crash => True
  | Undef => False
  end.
Proof.
  intros Hb H1 Hc. unfold readAtLeast.
  destruct (Z.ltb_spec len 0); [exact I|]. destruct (Z.leb_spec atLeast 0); [exact I|].
  destruct (Z.ltb_spec (zlen (rc_buf c) - base) atLeast); [exact I|]. cbn [orb].
  destruct (ral_loop_held (rp_fail p) base (zlen (rc_buf c) - base) atLeast (S (length (in_bytes (rc_in c)))) c len)
    as (n & c' & E & R); try lia; [exact Hc|unfold left_in, zlen; lia|].
  rewrite E. intuition.
Qed.

Lemma decode_in {A} (D : decoder A) P buf a mx : SafeDecW D P -> bytes_ok buf -> 0 <= a <= mx -> mx <= zlen buf ->
  exists r, decode_at D buf a mx = Ret r /\ forall v off, r = Some (v, off) -> P v /\ a <= off <= mx.
Proof.
  intros S Hb Ha Hm. rewrite decode_at_eq by lia.
  destruct (S (slice buf a (mx - a)) (bytes_ok_slice _ _ _ Hb)) as (r & E & R). rewrite E. cbn [obind].
  destruct r as [[x rest]|]; eexists; (split; [reflexivity|]); intros v off Eq; [|discriminate].
  injection Eq as <- <-. destruct (R x rest eq_refl) as (Hp & u & Eu). split; [exact Hp|].
  apply (f_equal (@zlen Z)) in Eu. rewrite zlen_slice in Eu by lia. rewrite zlen_app in Eu.
  pose proof (zlen_nonneg u). pose proof (zlen_nonneg rest). lia.
Qed.
Lemma SafeDecW_SettingsBody v : SafeDecW (decodeSettings_body v) (fun _ => True).
Proof.
  unfold decodeSettings_body.
  eapply SafeDecW_bind; [apply SafeDec_W, SafeDec_Int32C|]. intros r _.
  eapply SafeDecW_bind; [apply SafeDec_W, SafeDec_Int32C|]. intros w _.
  eapply SafeDecW_bind; [apply SafeDec_W, SafeDec_String|]. intros id _.
  destruct (SETTINGS_FLAG_VERSION <=? v); [|apply SafeDecW_ret; exact I].
  eapply SafeDecW_bind; [apply SafeDec_W, SafeDec_Byte|]. intros f _. apply SafeDecW_ret; exact I.
Qed.

(** What holds of a result. [total]: the bytes left to this thread, in the buffer
    and to come, strictly fewer after each command. *)
Definition total (c : rconn) : Z := rc_num c + left_in c.
Definition within (B t : Z) (c : rconn) (go : rnext) : Prop :=
  clean c /\ zlen (rc_buf c) = B /\ 0 <= rc_old c /\ 0 <= rc_off c <= B /\ rc_old c + rc_num c <= B /\
  (go = GoRead -> rc_off c + rc_num c <= B /\ total c < t).
(** At the start of a command's processing. *)
Definition ready (B t : Z) (c : rconn) : Prop :=
  clean c /\ zlen (rc_buf c) = B /\ 0 <= rc_old c /\ rc_off c = rc_old c + 1 /\ 256 <= rc_num c /\
  rc_old c + rc_num c <= B /\ total c <= t.
Definition safe (B t : Z) (o : outcome (rconn * rnext)) : Prop :=
  match o with Ret (c, go) => within B t c go | Crash => True | Undef => False end.

Ltac fin := unfold within, total, left_in, clean in *; cbn [log_ev with_pos with_old with_mode with_wait with_buf rc_buf rc_off rc_old rc_num rc_in] in *;
  intuition (try discriminate; try lia).

Lemma size_safe B t c : ready B t c -> safe B t (processSizeCmd c).
Proof.
  intros (C & HB & H1 & H2 & H3 & H4 & H5). unfold processSizeCmd.
  destruct (decode_in decodeSize _ (rc_buf c) (rc_off c) (rc_old c + kMaxSize) (SafeDec_W _ _ SafeDec_Int64C))
    as (r & E & R); [apply C|unfold kMaxSize; lia|unfold kMaxSize; lia|].
  rewrite E. cbn [obind]. destruct r as [[n off]|]; cbn [safe].
  - destruct (R n off eq_refl) as (_ & Ho). unfold kMaxSize in Ho. fin.
  - fin.
Qed.
Lemma done_safe B t c : ready B t c -> safe B t (processDoneCmd c).
Proof.
  intros (C & HB & H1 & H2 & H3 & H4 & H5). unfold processDoneCmd.
  destruct (negb _); [cbn [safe]; fin|].
  destruct (rd_in (rc_buf c) (rc_off c) ltac:(lia)) as (st & ->).
  destruct (SafeDecW_Done (rc_version c) (-1)) as (P & SD).
  destruct (decode_in _ _ (rc_buf c) (rc_off c + 1) (rc_old c + kMaxDone) SD)
    as (r & E & R); [apply C|unfold kMaxDone; lia|unfold kMaxDone; lia|].
  rewrite E. cbn [obind]. destruct r as [[n off]|]; cbn [safe].
  - destruct (R n off eq_refl) as (_ & Ho). unfold kMaxDone in Ho. fin.
  - fin.
Qed.
Lemma settings_version_go v sv g : settings_version v sv = inl g -> g <> GoRead.
Proof.
  unfold settings_version. destruct (sv =? v); [discriminate|].
  destruct (_ =? 0); [intros E; injection E as <-; discriminate|].
  destruct (_ =? sv); [discriminate|]. intros E; injection E as <-; discriminate.
Qed.
Lemma settings_safe B t p c : ready B t c ->
  safe B t (processSettingsCmd p c) \/ (processSettingsCmd p c = Undef /\ B < rc_old c + kMaxVersion + kMaxSettings).
Proof.
  intros (C & HB & H1 & H2 & H3 & H4 & H5). unfold processSettingsCmd.
  destruct (decode_in decodeVersion _ (rc_buf c) (rc_off c) (rc_old c + kMaxVersion) (SafeDec_W _ _ SafeDec_Int32C))
    as (r & E & R); [apply C|unfold kMaxVersion; lia|unfold kMaxVersion; lia|].
  rewrite E. cbn [obind]. destruct r as [[sv off]|]; [|left; cbn [safe]; fin].
  destruct (R sv off eq_refl) as (_ & Ho). unfold kMaxVersion in Ho.
  cbv zeta. destruct (settings_version _ _) as [g|v] eqn:Ev.
  { left. apply settings_version_go in Ev. cbn [safe]. fin. }
  unfold decodeSettings. destruct (Z.ltb_spec off 0); [lia|].
  destruct (Z.leb_spec (rc_old c + kMaxVersion + kMaxSettings) off) as [L|L].
  { unfold kMaxVersion, kMaxSettings, kMaxTransferIdLength in L. lia. }
  destruct (Z.ltb_spec B (rc_old c + kMaxVersion + kMaxSettings)) as [HL|HL].
  { right. split; [|exact HL]. unfold decode_at, makeByteRange.
    destruct (Z.ltb_spec off 0); [lia|]. destruct (Z.ltb_spec (rc_old c + kMaxVersion + kMaxSettings) 0); [lia|].
    destruct (Z.ltb_spec (rc_old c + kMaxVersion + kMaxSettings) off); [reflexivity|].
    destruct (Z.ltb_spec (zlen (rc_buf c)) (rc_old c + kMaxVersion + kMaxSettings)); [reflexivity|lia]. }
  left. destruct (decode_in _ _ (rc_buf c) off (rc_old c + kMaxVersion + kMaxSettings) (SafeDecW_SettingsBody v))
    as (r2 & E2 & R2); [apply C|lia|lia|].
  rewrite E2. cbn [obind]. destruct r2 as [[s off2]|]; [|cbn [safe]; fin].
  destruct (R2 s off2 eq_refl) as (_ & Ho2). unfold kMaxVersion, kMaxSettings, kMaxTransferIdLength in *.
  destruct (list_eq_dec _ _ _); [|cbn [safe]; fin].
  destruct (st_sendFileChunks s); cbn [safe]; fin.
Qed.

Lemma data_loop_held ds B fuel : forall c t sum writes aborts,
  clean c -> zlen (rc_buf c) = B -> 0 < B -> left_in c < Z.of_nat fuel ->
  exists r, data_loop fuel c ds t sum writes aborts = Ret r /\
  match r with
  | LDone t' _ c' => held c c' /\ clean c' /\ t' + left_in c' = t + left_in c
  | LStop t' c' go => go <> GoRead /\ held c c' /\ clean c'
  end.
Proof.
  induction fuel as [|fuel IH]; intros c t sum writes aborts Hc HB H0 Hf;
    [pose proof (zlen_nonneg (in_bytes (rc_in c))); unfold left_in in Hf; lia|].
  cbn [data_loop]. destruct (Z.leb_spec ds t) as [L|L].
  { eexists. split; [reflexivity|]. split; [apply held_refl|]. split; [exact Hc|reflexivity]. }
  destruct (hd false aborts).
  { eexists. split; [reflexivity|]. split; [discriminate|]. split; [apply held_refl|exact Hc]. }
  destruct (conn_read_held c 0 (Z.min (ds - t) (zlen (rc_buf c)))) as (r & c' & E & H1 & H2 & R); try lia; [exact Hc|].
  rewrite E. cbn [obind]. destruct r as [bs|].
  - destruct (hd true writes).
    + destruct H1 as (A1 & A2 & A3 & A4).
      destruct (IH (log_ev c' [RWrite bs]) (t + zlen bs) (if rc_checksum c then crc32c bs sum else sum) (tl writes) (tl aborts))
        as (r & E2 & R2); [exact H2|cbn [log_ev rc_buf]; lia|exact H0|unfold left_in in *; cbn [log_ev rc_in]; lia|].
      rewrite E2. exists r. split; [reflexivity|].
      assert (Hh : held c (log_ev c' [RWrite bs])) by (repeat split; auto).
      destruct r as [t' s' c''|t' c'' go].
      * destruct R2 as (G1 & G2 & G3). split; [eapply held_trans; [exact Hh|exact G1]|]. split; [exact G2|].
        unfold left_in in *. cbn [log_ev rc_in] in G3. lia.
      * destruct R2 as (G0 & G1 & G2). split; [exact G0|]. split; [eapply held_trans; [exact Hh|exact G1]|exact G2].
    + eexists. split; [reflexivity|]. split; [discriminate|]. split; assumption.
  - eexists. split; [reflexivity|]. split; [exact H1|]. split; [exact H2|]. lia.
Qed.

Lemma guard_within B t p c b n go : within B t c go -> within B t (guard_partial p c b n) go.
Proof. unfold guard_partial. destruct (_ && _); exact (fun x => x). Qed.

Lemma read_footer_safe B t p c b sum : clean c -> zlen (rc_buf c) = B -> 0 <= rc_off c -> rc_off c + rc_num c <= B ->
  total c <= t -> safe B t (read_footer p c b sum).
Proof.
  intros Hc HB H1 H2 H3. unfold read_footer. cbv zeta.
  pose proof (readAtLeast_held p (with_old c (rc_off c)) (rc_off c) kMinBufLength (rc_num c)) as HR.
  cbn [with_old rc_buf] in HR. specialize (HR H1 ltac:(lia) Hc).
  destruct (readAtLeast _ _ _ _ _ _) as [[n c1]| |]; [|exact I|contradiction]. cbn [obind].
  destruct HR as ((A1 & A2 & A3 & A4) & Hc1 & Hn & _ & H0 & Hl). cbn [with_old rc_off rc_old rc_num rc_buf] in *.
  unfold left_in in Hl at 2. cbn [with_old rc_in] in Hl. fold (left_in c) in Hl.
  destruct (Z.ltb_spec n kMinBufLength) as [L|L]; [cbn [safe]; fin|]. specialize (Hl ltac:(lia)).
  unfold kMinBufLength in L.
  destruct (rd_in (rc_buf c1) (rc_off c1) ltac:(lia)) as (cmd & ->). cbn [with_pos rc_buf rc_off rc_old].
  destruct (negb _); [cbn [safe]; fin|].
  destruct (decode_in decodeFooter _ (rc_buf c1) (rc_off c1 + 1) (rc_old c1 + kMaxFooter) (SafeDec_W _ _ SafeDec_Int32))
    as (r & E & R); [apply Hc1|unfold kMaxFooter; lia|unfold kMaxFooter; lia|].
  rewrite E. cbn [obind]. destruct r as [[got off]|]; [|cbn [safe]; fin].
  destruct (R got off eq_refl) as (_ & Ho). unfold kMaxFooter in Ho.
  destruct (negb _); cbn [safe]; fin.
Qed.
Lemma keep_rest_held c rem B : clean c -> zlen (rc_buf c) = B -> 0 <= rc_off c -> rc_off c + rem <= B -> 0 <= rem ->
  let c' := keep_rest c rem in
  clean c' /\ zlen (rc_buf c') = B /\ 0 <= rc_off c' /\ rc_off c' + rc_num c' <= B /\ rc_num c' = rem /\ left_in c' = left_in c /\
  rc_off c' <= B /\ rc_old c' = rc_old c.
Proof.
  intros [C1 C2] HB H1 H2 H3. unfold keep_rest. destruct (Z.ltb_spec 0 rem) as [L|L].
  - destruct (_ && _).
    + cbv zeta. unfold clean, left_in. cbn [with_pos with_buf rc_buf rc_off rc_num rc_in rc_old].
      assert (Ls : zlen (slice (rc_buf c) (rc_off c) rem) = rem) by (apply zlen_slice; lia).
      rewrite zlen_splice by lia. repeat split; auto; try lia.
      apply bytes_ok_splice; auto using bytes_ok_slice; lia.
    + cbv zeta. unfold clean, left_in. cbn [with_pos with_buf rc_buf rc_off rc_num rc_in rc_old]. repeat split; auto; lia.
  - cbv zeta. unfold clean, left_in. cbn [with_pos with_buf rc_buf rc_off rc_num rc_in rc_old].
    pose proof (zlen_nonneg (rc_buf c)). repeat split; auto; lia.
Qed.
Lemma block_safe B t p fe c b : clean c -> zlen (rc_buf c) = B -> 0 < B -> 0 <= rc_old c -> rc_old c < rc_off c <= B ->
  rc_old c + rc_num c <= B -> total c <= t -> 0 <= bd_dataSize b -> safe B t (receive_block p fe c b).
Proof.
  intros Hc HB H0 H1 H2 H3 H4 H5. unfold receive_block. cbv zeta.
  destruct (_ && negb (fe_open fe)); [cbn [safe]; apply guard_within; fin|].
  cbn [log_ev rc_num rc_old rc_off rc_buf rc_checksum].
  destruct (Z.ltb_spec (rc_num c + rc_old c - rc_off c) 0) as [|L]; [exact I|].
  remember (rc_num c + rc_old c - rc_off c) as rem eqn:Er.
  assert (Ht : exists tw, (if bd_dataSize b <=? rem then bd_dataSize b else rem) = tw /\ 0 <= tw <= rem /\ tw <= bd_dataSize b).
  { destruct (Z.leb_spec (bd_dataSize b) rem); eexists; (split; [reflexivity|lia]). }
  destruct Ht as (tw & -> & Ht & Htd).
  destruct (Z.ltb_spec tw 0); [lia|]. destruct (Z.ltb_spec (rc_off c) 0); [lia|].
  destruct (Z.ltb_spec (zlen (rc_buf c)) (rc_off c + tw)); [lia|]. cbn [orb].
  destruct (_ && _); [cbn [safe]; apply guard_within; fin|].
  set (c1 := if 0 <? tw then _ else _).
  assert (H1c : held c c1 /\ rc_in c1 = rc_in c /\ rc_buf c1 = rc_buf c).
  { unfold c1. destruct (0 <? tw); repeat split. }
  destruct H1c as ((A1 & A2 & A3 & A4) & A5 & A6). clearbody c1.
  destruct (data_loop_held (bd_dataSize b) B (S (length (in_bytes (rc_in c1)))) (with_pos c1 (rc_off c1 + tw) (rc_num c1)) tw
    (if rc_checksum c then crc32c (slice (rc_buf c) (rc_off c) tw) 0 else 0)
    (if 0 <? tw then tl (fe_writes fe) else fe_writes fe) (fe_abort fe)) as (r & E & R).
  { unfold clean. cbn [with_pos rc_buf rc_in]. rewrite A5, A6. exact Hc. }
  { cbn [with_pos rc_buf]. lia. }
  { exact H0. }
  { unfold left_in, zlen. cbn [with_pos rc_in]. lia. }
  rewrite E. cbn [obind]. destruct r as [t' s c2|t' c2 go].
  - destruct R as ((B1 & B2 & B3 & B4) & Hc2 & Hl). unfold left_in in Hl. cbn [with_pos rc_off rc_old rc_num rc_buf rc_in] in *.
    destruct (negb (fe_sync fe)); [cbn [safe]; apply guard_within; fin|].
    destruct (negb (fe_close fe)); [cbn [safe]; apply guard_within; fin|].
    destruct (Z.eqb_spec t' (bd_dataSize b)) as [Et|]; cbn [negb]; [|cbn [safe]; apply guard_within; fin].
    destruct (keep_rest_held (log_ev c2 [RStored]) (rem - tw) B) as (K1 & K2 & K3 & K4 & K5 & K6 & K7 & K8);
      cbn [log_ev rc_buf rc_off rc_old]; try lia; [exact Hc2|].
    set (k := keep_rest _ _) in *. clearbody k. cbn [log_ev rc_old] in K8.
    unfold left_in in K6. cbn [log_ev rc_in] in K6. rewrite A5 in Hl. unfold total, left_in in H4.
    assert (T : total k < t) by (unfold total, left_in; rewrite K5; lia).
    unfold finish_block. destruct (rc_checksum k).
    + apply read_footer_safe; auto; lia.
    + destruct (rp_tags p); cbn [safe]; fin.
  - destruct R as (Hg & (B1 & B2 & B3 & B4) & Hc2). cbn [with_pos rc_off rc_old rc_num rc_buf rc_in] in *.
    cbn [safe]. apply guard_within. fin.
Qed.
Lemma file_safe B t p fe c : ready B t c -> safe B t (processFileCmd p fe c).
Proof.
  intros (C & HB & H1 & H2 & H3 & H4 & H5). unfold processFileCmd.
  destruct (rd_in (rc_buf c) (rc_off c) ltac:(lia)) as (b & ->).
  destruct (rd_in (rc_buf c) (rc_off c + 1) ltac:(lia)) as (b0 & ->).
  destruct (rd_in (rc_buf c) (rc_off c + 2) ltac:(lia)) as (b1 & ->).
  cbv zeta. remember (int16_le b0 b1) as hlen eqn:Eh. clear Eh.
  destruct (Z.leb_spec hlen 0); [cbn [safe]; fin|].
  assert (X : match (if rc_num c <? hlen
       then readAtLeast p c (rc_old c + rc_num c) (zlen (rc_buf c) - (rc_old c + rc_num c)) hlen (rc_num c)
       else Ret (rc_num c, c)) with
     | Ret (n, c') => held c c' /\ clean c' /\ rc_old c + n <= B /\ (hlen <= n -> 256 <= n /\ n + left_in c' = rc_num c + left_in c)
     | Crash => True | Undef => False end).
  { destruct (Z.ltb_spec (rc_num c) hlen).
    - destruct (Z.ltb_spec (zlen (rc_buf c)) (rc_old c + rc_num c + rc_num c)) as [Hs|Hs].
      + unfold readAtLeast. destruct (Z.ltb_spec (zlen (rc_buf c) - (rc_old c + rc_num c)) hlen); [|lia].
        rewrite !orb_true_r. exact I.
      + pose proof (readAtLeast_held p c (rc_old c + rc_num c) hlen (rc_num c) ltac:(lia) ltac:(lia) C) as HR.
        destruct (readAtLeast _ _ _ _ _ _) as [[n c1]| |]; [|exact I|exact HR].
        destruct HR as (A & B1 & B2 & _ & _ & B3). split; [exact A|]. split; [exact B1|]. split; [lia|].
        intros Hn. split; [lia|]. apply B3, Hn.
    - split; [apply held_refl|]. split; [exact C|]. lia. }
  destruct (if rc_num c <? hlen then _ else _) as [[n c1]| |]; [|exact I|contradiction]. cbn [obind].
  destruct X as ((A1 & A2 & A3 & A4) & Hc1 & Hn & Hr).
  destruct (Z.ltb_spec n hlen) as [L|L]; [cbn [safe]; fin|]. destruct (Hr L) as (Hn2 & Hl).
  cbn [with_pos rc_buf rc_off rc_old rc_version].
  destruct (decode_in (decodeHeader (rc_version c1)) _ (rc_buf c1) (rc_off c1 + 3) (n + rc_old c1) (SafeDec_W _ _ (SafeDec_Header _)))
    as (r & E & R); [apply Hc1|lia|lia|].
  rewrite E. cbn [obind]. destruct r as [[bd off]|]; [|cbn [safe]; fin].
  destruct (R bd off eq_refl) as ((_ & _ & Hd & _) & Ho). cbn [with_pos rc_old].
  destruct (negb _); [cbn [safe]; fin|]. destruct (_ && _); [cbn [safe]; fin|].
  apply block_safe; cbn [with_pos rc_buf rc_off rc_old rc_num]; try lia; [exact Hc1| |unfold in_nat63 in Hd; lia].
  unfold total, left_in in *. cbn [with_pos rc_num rc_in]. lia.
Qed.

(** One command. *)
Definition settings_overrun (p : rparams) (B : Z) (c : rconn) : Prop :=
  exists c1, readNextCmd p c = Ret (c1, GoSettings) /\ B < rc_old c1 + kMaxVersion + kMaxSettings.
Lemma next_ready B p c : clean c -> in_buffer B c ->
  match readNextCmd p c with
    | Ret (c1, go) => match go with
        | GoSettings | GoFile | GoDone | GoSize => ready B (total c) c1
        | _ => within B (total c) c1 go /\ go <> GoRead end
    | Crash => True | Undef => False end.
Proof.
  intros Hc (HB & H1 & H2). unfold readNextCmd. cbv zeta.
  pose proof (readAtLeast_held p (with_old c (rc_off c)) (rc_off c) kMinBufLength (rc_num c)) as HR.
  cbn [with_old rc_buf] in HR. specialize (HR H1 ltac:(lia) Hc).
  destruct (readAtLeast _ _ _ _ _ _) as [[n c1]| |]; [|exact I|contradiction]. cbn [obind].
  destruct HR as ((A1 & A2 & A3 & A4) & Hc1 & Hn & _ & H0 & Hl). cbn [with_old rc_off rc_old rc_num rc_buf] in *.
  unfold left_in in Hl at 2. cbn [with_old rc_in] in Hl. fold (left_in c) in Hl.
  destruct (Z.ltb_spec n kMinBufLength) as [L|L]; [split; [fin|discriminate]|]. specialize (Hl ltac:(lia)).
  unfold kMinBufLength in L.
  destruct (rd_in (rc_buf c1) (rc_off c1) ltac:(lia)) as (cmd & ->).
  assert (Rd : ready B (total c) (with_pos c1 (rc_off c1 + 1) n)).
  { unfold ready. unfold total, left_in in *. cbn [with_pos rc_buf rc_off rc_old rc_num rc_in].
    split; [exact Hc1|]. repeat split; lia. }
  repeat (destruct (cmd =? _); [exact Rd|]). split; [fin|discriminate].
Qed.
Lemma do_cmd_safe B p fe c : clean c -> in_buffer B c ->
  safe B (total c) (do_cmd p fe c) \/ (do_cmd p fe c = Undef /\ settings_overrun p B c).
Proof.
  intros Hc Hi. unfold do_cmd, settings_overrun. pose proof (next_ready B p c Hc Hi) as X.
  destruct (readNextCmd p c) as [[c1 g]| |]; [|left; exact I|contradiction]. cbn [obind fst snd].
  destruct g; try (left; apply X).
  - destruct (settings_safe B (total c) p c1 X) as [S|(S1 & S2)]; [left; exact S|right]. split; [exact S1|].
    exists c1. split; [reflexivity|exact S2].
  - left. apply file_safe, X.
  - left. apply done_safe, X.
  - left. apply size_safe, X.
Qed.
Lemma ready_total B t c : ready B t c -> 0 < t.
Proof.
  intros (_ & _ & _ & _ & H & _ & T). unfold total, left_in in T.
  pose proof (zlen_nonneg (in_bytes (rc_in c))). lia.
Qed.
Lemma go_read_total B p fe c c1 : clean c -> in_buffer B c -> do_cmd p fe c = Ret (c1, GoRead) -> 0 < total c.
Proof.
  intros Hc Hi E. unfold do_cmd in E. pose proof (next_ready B p c Hc Hi) as X.
  destruct (readNextCmd p c) as [[c2 g]| |]; try discriminate. cbn [obind fst snd] in E.
  destruct g; try discriminate; try (eapply ready_total; exact X). destruct X as [_ X]. congruence.
Qed.
Lemma commands_inside p c0 c : clean c0 -> in_buffer (zlen (rc_buf c0)) c0 -> commands p c0 c ->
  clean c /\ in_buffer (zlen (rc_buf c0)) c.
Proof.
  intros H1 H2 H. induction H as [|c1 c2 fe _ [IH1 IH2] E]; [split; assumption|].
  destruct (do_cmd_safe _ p fe c1 IH1 IH2) as [S|[S _]]; rewrite E in S; [|discriminate].
  destruct S as (A1 & A2 & A3 & A4 & A5 & A6). destruct (A6 eq_refl) as [A7 _].
  split; [exact A1|]. split; [exact A2|]. split; [lia|exact A7].
Qed.
Lemma commands_first p c c1 c2 fe : do_cmd p fe c = Ret (c1, GoRead) -> commands p c1 c2 -> commands p c c2.
Proof.
  intros Ed G. induction G as [|c3 c4 fe' G IH E]; [eapply co_more; [constructor|exact Ed]|eapply co_more; eassumption].
Qed.
Lemma run_ends p B fuel : forall envs c, clean c -> in_buffer B c -> total c <= Z.of_nat fuel ->
  run_conn fuel p envs c = Undef -> exists c1 fe, commands p c c1 /\ do_cmd p fe c1 = Undef.
Proof.
  induction fuel as [|fuel IH]; intros envs c H1 H2 H3 E; cbn [run_conn] in E;
    destruct (do_cmd_safe _ p (hd fenv_ok envs) c H1 H2) as [S|[S _]];
    destruct (do_cmd _ _ _) as [[c1 g]| |] eqn:Ed; try discriminate; try contradiction;
    try (exists c, (hd fenv_ok envs); split; [constructor|exact Ed]); cbn [obind fst snd] in E.
  - exfalso. destruct g; try discriminate. pose proof (go_read_total _ _ _ _ _ H1 H2 Ed). lia.
  - destruct g; try discriminate. destruct S as (A1 & A2 & A3 & A4 & A5 & A6).
    destruct (A6 eq_refl) as [A7 A8].
    destruct (IH (tl envs) c1) as (c2 & fe & G1 & G2); [exact A1|split; [exact A2|split; [lia|exact A7]]|lia|exact E|].
    exists c2, fe. split; [|exact G2]. eapply commands_first; eassumption.
Qed.
Lemma fresh_inside buf l v sum : bytes_ok buf -> bytes_ok (in_bytes l) ->
  clean (fresh_conn buf l v sum) /\ in_buffer (zlen buf) (fresh_conn buf l v sum).
Proof. intros H1 H2. split; [split; assumption|]. split; [reflexivity|]. cbn. pose proof (zlen_nonneg buf). lia. Qed.

(** The statements for the property file. *)
Lemma buffer_inside p buf l v sum c : bytes_ok buf -> bytes_ok (in_bytes l) ->
  commands p (fresh_conn buf l v sum) c -> in_buffer (zlen buf) c.
Proof.
  intros H1 H2 H. destruct (fresh_inside buf l v sum H1 H2) as [A B].
  apply (commands_inside p _ c A B) in H. apply H.
Qed.
Lemma buffer_undef p buf l v sum c fe : bytes_ok buf -> bytes_ok (in_bytes l) ->
  commands p (fresh_conn buf l v sum) c -> do_cmd p fe c = Undef ->
  exists c1, readNextCmd p c = Ret (c1, GoSettings) /\ rc_old c1 + 256 <= zlen buf < rc_old c1 + kMaxVersion + kMaxSettings.
Proof.
  intros H1 H2 H E. destruct (fresh_inside buf l v sum H1 H2) as [A B].
  apply (commands_inside p _ c A B) in H as [C1 C2]. cbn [fresh_conn rc_buf] in C2.
  destruct (do_cmd_safe _ p fe c C1 C2) as [S|[_ (c1 & S1 & S2)]]; [rewrite E in S; contradiction|].
  exists c1. split; [exact S1|]. pose proof (next_ready _ p c C1 C2) as R. rewrite S1 in R.
  destruct R as (_ & _ & _ & _ & R1 & R2 & _). lia.
Qed.
Lemma buffer_ends p buf l v sum envs : bytes_ok buf -> bytes_ok (in_bytes l) ->
  run_conn (length (in_bytes l)) p envs (fresh_conn buf l v sum) = Undef ->
  exists c fe, commands p (fresh_conn buf l v sum) c /\ do_cmd p fe c = Undef.
Proof.
  intros H1 H2 E. destruct (fresh_inside buf l v sum H1 H2) as [A B].
  eapply run_ends; [exact A|exact B| |exact E]. unfold total, left_in, zlen. cbn. lia.
Qed.
Lemma buffer_after p buf l v sum c fe c' go : bytes_ok buf -> bytes_ok (in_bytes l) ->
  commands p (fresh_conn buf l v sum) c -> do_cmd p fe c = Ret (c', go) ->
  zlen (rc_buf c') = zlen buf /\ 0 <= rc_off c' <= zlen buf /\ rc_old c' + rc_num c' <= zlen buf.
Proof.
  intros H1 H2 H E. destruct (fresh_inside buf l v sum H1 H2) as [A B].
  apply (commands_inside p _ c A B) in H as [C1 C2]. cbn [fresh_conn rc_buf] in C2.
  destruct (do_cmd_safe _ p fe c C1 C2) as [S|[S _]]; rewrite E in S; [|discriminate].
  destruct S as (S1 & S2 & S3 & S4 & S5 & S6). auto.
Qed.
