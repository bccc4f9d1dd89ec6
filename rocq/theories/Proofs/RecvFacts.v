(** The receive buffer against the stream. *)
From Verif Require Import Model.RecvConn Spec.StreamSpec Spec.CodecSpec Proofs.BytesFacts Proofs.VarintFacts
  Proofs.ProtocolCodecFacts Proofs.LocalDecFacts.

Local Opaque Z.pow Z.quot.

Definition kvp (p : rparams) : bool := negb (rp_tags p).
Definition waits (p : rparams) (c : rconn) : Prop := rp_tags p = false -> rc_waiting c = [].
(** Same position and mode, same visible history. *)
Definition core (p : rparams) (c c' : rconn) : Prop :=
  rc_off c' = rc_off c /\ rc_old c' = rc_old c /\ rc_num c' = rc_num c /\
  rc_version c' = rc_version c /\ rc_checksum c' = rc_checksum c /\
  seen (kvp p) (rc_ev c') = seen (kvp p) (rc_ev c) /\ (waits p c -> waits p c').
Lemma core_refl p c : core p c c.
Proof. repeat split; auto. Qed.
Lemma core_trans p a b c : core p a b -> core p b c -> core p a c.
Proof. unfold core; intuition congruence. Qed.
Lemma seen_app kv a b : seen kv (a ++ b) = seen kv a ++ seen kv b.
Proof. apply flat_map_app. Qed.

Lemma on_tag_core p c : waits p c -> core p c (on_tag c).
Proof.
  intros W. unfold core, on_tag; cbn. repeat split; try reflexivity.
  - unfold seen. rewrite flat_map_app. cbn [flat_map letters app].
    assert (E : flat_map (letters (kvp p)) (map RVerified (rc_waiting c)) = []).
    { unfold kvp. destruct (rp_tags p) eqn:T; cbn [negb].
      - induction (rc_waiting c); cbn; auto.
      - rewrite (W T). reflexivity. }
    rewrite E, app_nil_r. reflexivity.
Qed.
Lemma on_tag_buf c : rc_buf (on_tag c) = rc_buf c.
Proof. reflexivity. Qed.

Lemma sock_read_ok p max l : forall c, 0 < max -> waits p c ->
  match sock_read l max c with
  | (None, c') => in_bytes l = [] /\ in_bytes (rc_in c') = [] /\ core p c c' /\ rc_buf c' = rc_buf c
  | (Some bs, c') => bs <> [] /\ zlen bs <= max /\ in_bytes l = bs ++ in_bytes (rc_in c') /\
      core p c c' /\ rc_buf c' = rc_buf c
  end.
Proof.
  induction l as [|[bs|] r IH]; intros c Hm W.
  - cbn. repeat split; auto.
  - destruct bs as [|b bs]; [apply (IH c Hm W)|]. cbn [sock_read in_bytes].
    destruct (Z.leb_spec (zlen (b :: bs)) max) as [L|L].
    + repeat split; auto. discriminate.
    + cbn [with_in rc_in in_bytes]. repeat split; auto.
      * destruct (Z.to_nat max) eqn:E; [lia|discriminate].
      * rewrite zlen_firstn by lia. lia.
      * rewrite app_assoc, firstn_skipn. reflexivity.
  - cbn [sock_read in_bytes]. specialize (IH (on_tag c) Hm).
    pose proof (on_tag_core p c W) as C.
    assert (W' : waits p (on_tag c)) by (apply C; exact W).
    specialize (IH W'). destruct (sock_read r max (on_tag c)) as [[bs|] c'].
    + destruct IH as (I1 & I2 & I3 & I4 & I5). repeat split; try assumption; try (eapply core_trans; eassumption).
    + destruct IH as (I1 & I2 & I3 & I4). repeat split; try assumption; try (eapply core_trans; eassumption).
Qed.

Lemma conn_read_ok p c pos max : waits p c -> 0 <= pos -> 0 < max -> pos + max <= zlen (rc_buf c) ->
  exists r c', conn_read c pos max = Ret (r, c') /\ core p c c' /\ zlen (rc_buf c') = zlen (rc_buf c) /\
  match r with
  | None => in_bytes (rc_in c) = [] /\ in_bytes (rc_in c') = [] /\ rc_buf c' = rc_buf c
  | Some bs => bs <> [] /\ zlen bs <= max /\ in_bytes (rc_in c) = bs ++ in_bytes (rc_in c') /\
      rc_buf c' = splice (rc_buf c) pos bs
  end.
Proof.
  intros W Hp Hm Hb. unfold conn_read.
  destruct (Z.leb_spec max 0); [lia|]. destruct (Z.ltb_spec pos 0); [lia|].
  destruct (Z.ltb_spec (zlen (rc_buf c)) (pos + max)); [lia|]. cbn [orb].
  pose proof (sock_read_ok p max (rc_in c) c Hm W) as S.
  destruct (sock_read (rc_in c) max c) as [[bs|] c'].
  - destruct S as (S1 & S2 & S3 & S4 & S5). eexists _, _. split; [reflexivity|].
    cbn [with_buf rc_buf rc_in]. rewrite S5.
    split; [destruct S4 as (A1 & A2 & A3 & A4 & A5 & A6 & A7); repeat split; auto|].
    split; [apply zlen_splice; lia|]. repeat split; auto.
  - destruct S as (S1 & S2 & S3 & S4). eexists _, _. split; [reflexivity|].
    rewrite S4. repeat split; auto; apply S3.
Qed.

(** The bytes in the buffer from [base], and those still to come. *)
Definition from (c : rconn) (base len : Z) : list Z := slice (rc_buf c) base len ++ in_bytes (rc_in c).

Lemma slice_splice_grow (l : list Z) base len bs : 0 <= base -> 0 <= len ->
  base + len + zlen bs <= zlen l ->
  slice (splice l (base + len) bs) base (len + zlen bs) = slice l base len ++ bs.
Proof.
  intros Hb Hl H. pose proof (zlen_nonneg bs).
  assert (Z1 : zlen (splice l (base + len) bs) = zlen l) by (apply zlen_splice; lia).
  apply rd_ext.
  - rewrite zlen_slice by lia. rewrite zlen_app, zlen_slice by lia. reflexivity.
  - intros i. destruct (Z.ltb_spec i 0); [rewrite !rd_neg by lia; reflexivity|].
    destruct (Z.ltb_spec i (len + zlen bs)).
    + rewrite rd_slice by lia. rewrite rd_splice by lia.
      destruct (Z.ltb_spec i len).
      * rewrite rd_app_l by (rewrite zlen_slice; lia). rewrite rd_slice by lia.
        destruct (Z.leb_spec (base + len) (base + i)); [lia|]. reflexivity.
      * rewrite rd_app_r by (rewrite zlen_slice; lia). rewrite zlen_slice by lia.
        destruct (Z.leb_spec (base + len) (base + i)); [|lia].
        destruct (Z.ltb_spec (base + i) (base + len + zlen bs)); [|lia]. cbn [andb].
        f_equal; lia.
    + rewrite !rd_ge; [reflexivity| |].
      * rewrite zlen_app, zlen_slice by lia. lia.
      * rewrite zlen_slice by lia. lia.
Qed.

Lemma ral_loop_ok p base max atLeast fail fuel : forall c len,
  waits p c -> 0 <= base -> 0 <= len -> base + max <= zlen (rc_buf c) -> atLeast <= max -> len <= max ->
  (length (in_bytes (rc_in c)) < fuel)%nat ->
  exists n c', ral_loop fuel fail c base max atLeast len = Ret (n, c') /\ core p c c' /\
    zlen (rc_buf c') = zlen (rc_buf c) /\
    ((atLeast <= n /\ len <= n <= max /\ from c' base n = from c base len) \/
     (n < atLeast /\ in_bytes (rc_in c') = [] /\ zlen (from c base len) < atLeast /\
      Z.max 0 n = zlen (from c base len))) /\
    (forall i, 0 <= i < base + len -> rd (rc_buf c') i = rd (rc_buf c) i).
Proof.
  induction fuel as [|fuel IH]; intros c len W Hb Hl HB Ha Hm Hf; [lia|].
  cbn [ral_loop]. destruct (Z.leb_spec atLeast len) as [L|L].
  - eexists _, _. split; [reflexivity|]. split; [apply core_refl|]. split; [reflexivity|].
    split; [|auto]. left. repeat split; auto; lia.
  - destruct (conn_read_ok p c (base + len) (max - len) W) as (r & c' & E & C & Z1 & R); try lia.
    rewrite E. cbn [obind]. destruct r as [bs|].
    + destruct R as (R1 & R2 & R3 & R4).
      assert (Lb : 1 <= zlen bs).
      { destruct bs; [congruence|]. rewrite zlen_cons. pose proof (zlen_nonneg bs); lia. }
      destruct (IH c' (len + zlen bs)) as (n & c'' & E2 & C2 & Z2 & R' & U).
      * apply C; exact W.
      * lia.
      * lia.
      * lia.
      * lia.
      * lia.
      * rewrite R3, app_length in Hf. unfold zlen in Lb. lia.
      * assert (F : from c' base (len + zlen bs) = from c base len).
        { unfold from. rewrite R4, slice_splice_grow by lia. rewrite R3, app_assoc. reflexivity. }
        rewrite E2. exists n, c''. split; [reflexivity|]. split; [eapply core_trans; eassumption|].
        split; [lia|]. rewrite F in R'. split.
        -- destruct R' as [(R5 & R6 & R7)|R']; [left; repeat split; auto; lia|right; exact R'].
        -- intros i Hi. rewrite U by lia. rewrite R4. rewrite rd_splice by lia.
           destruct (Z.leb_spec (base + len) i); [lia|]. reflexivity.
    + destruct R as (R1 & R2 & R3).
      assert (F : zlen (from c base len) = len).
      { unfold from. rewrite R1, app_nil_r. apply zlen_slice; lia. }
      eexists _, _. split; [reflexivity|]. split; [exact C|]. split; [exact Z1|].
      split; [|intros; rewrite R3; reflexivity]. right.
      destruct fail; cbn [andb]; [destruct (Z.eqb_spec len 0)|]; repeat split; auto; lia.
Qed.

Lemma readAtLeast_ok p c base atLeast len :
  waits p c -> 0 <= base -> 0 <= len -> base + len <= zlen (rc_buf c) -> 0 < atLeast ->
  base + atLeast <= zlen (rc_buf c) ->
  exists n c', readAtLeast p c base (zlen (rc_buf c) - base) atLeast len = Ret (n, c') /\ core p c c' /\
    zlen (rc_buf c') = zlen (rc_buf c) /\
    ((atLeast <= n /\ len <= n <= zlen (rc_buf c) - base /\ from c' base n = from c base len) \/
     (n < atLeast /\ in_bytes (rc_in c') = [] /\ zlen (from c base len) < atLeast /\
      Z.max 0 n = zlen (from c base len))) /\
    (forall i, 0 <= i < base + len -> rd (rc_buf c') i = rd (rc_buf c) i).
Proof.
  intros W Hb Hl H1 H2 H3. unfold readAtLeast.
  destruct (Z.ltb_spec len 0); [lia|]. destruct (Z.leb_spec atLeast 0); [lia|].
  destruct (Z.ltb_spec (zlen (rc_buf c) - base) atLeast); [lia|]. cbn [orb].
  apply ral_loop_ok; auto; lia.
Qed.

(** Reading through a view of the stream. *)
Lemma view_rd (buf ins : list Z) o n i : 0 <= o -> 0 <= i < n -> o + n <= zlen buf ->
  rd buf (o + i) = rd (slice buf o n ++ ins) i.
Proof.
  intros H1 H2 H3. rewrite rd_app_l by (rewrite zlen_slice; lia). rewrite rd_slice by lia. reflexivity.
Qed.
Lemma view_slice (buf ins : list Z) o n i k : 0 <= o -> 0 <= i -> 0 <= k -> i + k <= n -> o + n <= zlen buf ->
  slice buf (o + i) k = slice (slice buf o n ++ ins) i k.
Proof.
  intros H1 H2 H3 H4 H5. pose proof (zlen_nonneg ins).
  apply rd_ext.
  - rewrite !zlen_slice; rewrite ?zlen_app, ?zlen_slice; lia.
  - intros j. destruct (Z.ltb_spec j 0); [rewrite !rd_neg by lia; reflexivity|].
    destruct (Z.ltb_spec j k).
    + rewrite !rd_slice by lia. rewrite <- view_rd by lia. f_equal; lia.
    + assert (L1 : zlen (slice buf (o + i) k) = k) by (apply zlen_slice; lia).
      assert (L2 : zlen (slice (slice buf o n ++ ins) i k) = k).
      { apply zlen_slice; try lia. rewrite zlen_app, zlen_slice; lia. }
      rewrite !rd_ge by lia. reflexivity.
Qed.
Lemma view_skip (buf ins : list Z) o n k : 0 <= o -> 0 <= k <= n -> o + n <= zlen buf ->
  slice buf (o + k) (n - k) ++ ins = skipn (Z.to_nat k) (slice buf o n ++ ins).
Proof.
  intros H1 H2 H3. replace n with (k + (n - k)) at 2 by lia. rewrite slice_app_split by lia.
  assert (L : zlen (slice buf o k) = k) by (apply zlen_slice; lia).
  rewrite <- app_assoc. rewrite <- L at 3. rewrite skipn_zlen_app. reflexivity.
Qed.
Lemma view_take (buf ins : list Z) o n k : 0 <= o -> 0 <= k <= n -> o + n <= zlen buf ->
  slice buf o k = firstn (Z.to_nat k) (slice buf o n ++ ins).
Proof.
  intros H1 H2 H3. replace n with (k + (n - k)) by lia. rewrite slice_app_split by lia.
  assert (L : zlen (slice buf o k) = k) by (apply zlen_slice; lia).
  rewrite <- app_assoc. rewrite <- L at 2. rewrite firstn_zlen_app. reflexivity.
Qed.
Lemma decode_at_eq {A} (D : decoder A) buf a mx : 0 <= a <= mx -> mx <= zlen buf ->
  decode_at D buf a mx =
    obind (D (slice buf a (mx - a))) (fun r =>
    match r with None => Ret None | Some (x, rest) => Ret (Some (x, mx - zlen rest)) end).
Proof.
  intros H1 H2. unfold decode_at, makeByteRange.
  destruct (Z.ltb_spec a 0); [lia|]. destruct (Z.ltb_spec mx 0); [lia|].
  destruct (Z.ltb_spec mx a); [lia|]. destruct (Z.ltb_spec (zlen buf) mx); [lia|]. cbn [obind].
  destruct (D (slice buf a (mx - a))) as [[[x rest]|]| |]; try reflexivity. cbn [obind].
  unfold range_offset. rewrite zlen_slice by lia.
  replace (a + (mx - a - zlen rest)) with (mx - zlen rest) by lia. reflexivity.
Qed.
Lemma decode_longer {A} (D : decoder A) (buf : list Z) a n n' x r : LocalDec D -> 0 <= a -> 0 <= n <= n' ->
  D (slice buf a n) = Ret (Some (x, r)) ->
  D (slice buf a n') = Ret (Some (x, r ++ slice buf (a + n) (n' - n))).
Proof.
  intros L Ha Hn H. destruct (L _ _ _ H) as (used & E & Dc).
  replace n' with (n + (n' - n)) at 1 by lia. rewrite slice_app_split by lia.
  rewrite E, <- app_assoc. apply Dc.
Qed.

(** The connection between two commands, and what is still to be processed. *)
Definition base_max (B : Z) : Z := Z.max (Z.quot B 2) (B - kMaxHeader).
Record Inv (p : rparams) (c : rconn) (m : smode) : Prop := {
  iv_waits : waits p c;
  iv_off : 0 <= rc_off c;
  iv_num : 0 <= rc_num c;
  iv_end : rc_off c + rc_num c <= zlen (rc_buf c);
  iv_size : kMaxHeader <= zlen (rc_buf c);
  iv_slack : 0 <= ss_slack m <= 1000;
  iv_base : rc_off c <= base_max (zlen (rc_buf c)) + ss_slack m;
  iv_version : rc_version c = ss_version m;
  iv_checksum : rc_checksum c = ss_checksum m
}.
Definition unread (c : rconn) : list Z := from c (rc_off c) (rc_num c).

Lemma base_max_le B : kMaxHeader <= B -> base_max B + 2066 <= B /\ 0 <= base_max B.
Proof.
  unfold base_max, kMaxHeader, PATH_MAX. intros H.
  pose proof (Z.quot_div_nonneg B 2 ltac:(lia) ltac:(lia)) as Q.
  pose proof (Z.mul_div_le B 2 ltac:(lia)). pose proof (Z.div_pos B 2 ltac:(lia) ltac:(lia)). lia.
Qed.

(** After READ_NEXT_CMD. *)
Record Mid (p : rparams) (c : rconn) (m : smode) (u : list Z) : Prop := {
  md_waits : waits p c;
  md_old : 0 <= rc_old c;
  md_off : rc_off c = rc_old c + 1;
  md_num : 256 <= rc_num c;
  md_end : rc_old c + rc_num c <= zlen (rc_buf c);
  md_size : kMaxHeader <= zlen (rc_buf c);
  md_slack : 0 <= ss_slack m <= 1000;
  md_base : rc_old c <= base_max (zlen (rc_buf c)) + ss_slack m;
  md_version : rc_version c = ss_version m;
  md_checksum : rc_checksum c = ss_checksum m;
  md_view : slice (rc_buf c) (rc_old c) (rc_num c) ++ in_bytes (rc_in c) = u
}.
Definition rc_seen (p : rparams) (c : rconn) := seen (kvp p) (rc_ev c).

Lemma read_min_ok p c m : Inv p c m -> exists n c',
  readAtLeast p (with_old c (rc_off c)) (rc_off c) (zlen (rc_buf c) - rc_off c) kMinBufLength (rc_num c) = Ret (n, c') /\
  zlen (rc_buf c') = zlen (rc_buf c) /\ rc_seen p c' = rc_seen p c /\
  ((n < 256 /\ zlen (unread c) < 256 /\ in_bytes (rc_in c') = []) \/
   (256 <= n /\ 256 <= zlen (unread c) /\ rc_off c' = rc_off c /\
    Mid p (with_pos c' (rc_off c' + 1) n) m (unread c))).
Proof.
  intros [W O N E Sz Sl Ba Ve Ch]. pose proof (base_max_le _ Sz) as [Bm _].
  destruct (readAtLeast_ok p (with_old c (rc_off c)) (rc_off c) 256 (rc_num c)) as (n & c' & Er & C & Z1 & R & _);
    auto; cbn [with_old rc_buf]; try lia.
  cbn [with_old rc_buf] in *. exists n, c'. split; [exact Er|]. split; [exact Z1|].
  destruct C as (C1 & C2 & C3 & C4 & C5 & C6 & C7). cbn [with_old rc_off rc_old rc_num rc_version rc_checksum rc_ev] in *.
  split; [exact C6|]. destruct R as [(R1 & R2 & R3)|(R1 & R2 & R3 & R4)].
  - right. change (from (with_old c (rc_off c)) (rc_off c) (rc_num c)) with (unread c) in R3.
    split; [exact R1|]. split.
    { rewrite <- R3. unfold from. rewrite zlen_app, zlen_slice by lia.
      pose proof (zlen_nonneg (in_bytes (rc_in c'))). lia. }
    split; [exact C1|].
    constructor; cbn [with_pos rc_buf rc_off rc_old rc_num rc_in rc_version rc_checksum]; try lia; try congruence.
    + apply C7. exact W.
    + rewrite C2. exact R3.
  - left. repeat split; auto.
Qed.
