From Verif Require Import Model.FileSource Proofs.BytesFacts Spec.FileSourceSpec.


Lemma rem_bounds p : 0 <= p -> 0 <= Z.rem p kDiskBlockSize < kDiskBlockSize.
Proof. intros; apply Z.rem_bound_pos; unfold kDiskBlockSize; lia. Qed.
Lemma rem_le p : 0 <= p -> Z.rem p kDiskBlockSize <= p.
Proof. intros; apply Z.rem_le; unfold kDiskBlockSize; lia. Qed.
Lemma round_up_le x B : 0 <= x <= B -> Z.rem B kDiskBlockSize = 0 ->
  x <= Z.quot (x + kDiskBlockSize - 1) kDiskBlockSize * kDiskBlockSize <= B.
Proof.
  unfold kDiskBlockSize. intros H R.
  assert (R' : B mod 4096 = 0) by (rewrite <- Z.rem_mod_nonneg by lia; exact R).
  rewrite Z.quot_div_nonneg by lia.
  pose proof (Z.div_mod (x + 4096 - 1) 4096 ltac:(lia)).
  pose proof (Z.mod_pos_bound (x + 4096 - 1) 4096 ltac:(lia)).
  pose proof (Z.div_mod B 4096 ltac:(lia)). 
  assert ((x + 4096 - 1) / 4096 <= B / 4096).
  { apply Z.lt_succ_r. apply Z.div_lt_upper_bound; lia. }
  lia.
Qed.
Lemma slice_of_put {A} (f buf : list A) seek k at_ n : 0 <= seek -> 0 <= k -> 0 <= at_ -> 0 <= n ->
  at_ + n <= k -> seek + k <= zlen f ->
  slice (slice f seek k ++ skipn (Z.to_nat k) buf) at_ n = slice f (seek + at_) n.
Proof.
  intros. assert (HL : zlen (slice f seek k) = k) by (rewrite zlen_slice; lia).
  pose proof (zlen_nonneg (skipn (Z.to_nat k) buf)).
  assert (HA : zlen (slice f seek k ++ skipn (Z.to_nat k) buf) = k + zlen (skipn (Z.to_nat k) buf))
    by (rewrite zlen_app, HL; reflexivity).
  apply rd_ext.
  - rewrite !zlen_slice; lia.
  - intros i. destruct (Z.ltb_spec i 0); [rewrite !rd_neg by lia; reflexivity|].
    destruct (Z.ltb_spec i n).
    + rewrite !rd_slice by lia. rewrite rd_app_l by lia. rewrite rd_slice by lia. f_equal; lia.
    + rewrite !rd_ge; [reflexivity| |]; rewrite zlen_slice; lia.
Qed.

Definition live (s : fsrc) : Prop :=
  0 <= fs_offset s /\ 0 <= fs_bytesRead s < fs_size s /\ fs_fd s = true.

Lemma live_facts B s : live s -> buffer_ok B (fs_aligned s) ->
  0 <= fs_remainder s <= fs_pos s /\ 0 < fs_logical B s /\
  fs_logical B s + fs_remainder s <= B /\ fs_logical B s <= fs_size s - fs_bytesRead s /\
  fs_logical B s + fs_remainder s <= fs_physical B s <= B /\
  (fs_aligned s = true -> fs_remainder s < kDiskBlockSize) /\
  (fs_aligned s = false -> fs_remainder s = 0 /\ fs_physical B s = fs_logical B s).
Proof.
  intros (H1 & H2 & H3) (B1 & B2).
  assert (HP : 0 <= fs_pos s) by (unfold fs_pos; lia).
  unfold fs_physical, fs_logical, fs_remainder.
  destruct (fs_aligned s) eqn:E.
  - specialize (B2 eq_refl). pose proof (rem_bounds _ HP) as R1. pose proof (rem_le _ HP) as R2.
    set (r := Z.rem (fs_pos s) kDiskBlockSize) in *.
    assert (HB : kDiskBlockSize <= B).
    { unfold kDiskBlockSize in *. rewrite Z.rem_mod_nonneg in B2 by lia.
      pose proof (Z.div_mod B 4096 ltac:(lia)). assert (0 < B / 4096) by lia. lia. }
    set (l := Z.min (B - r) (fs_size s - fs_bytesRead s)).
    assert (Hl : 0 < l /\ l + r <= B /\ l <= fs_size s - fs_bytesRead s) by lia.
    assert (Hx : 0 <= l + r <= B) by lia.
    pose proof (round_up_le (l + r) B Hx B2) as HR.
    repeat split; try lia; discriminate.
  - repeat split; try lia; discriminate.
Qed.

Lemma read_step f buf r s : live s -> buffer_ok (zlen buf) (fs_aligned s) ->
  pres_ok (zlen f) (fs_seek s) (fs_physical (zlen buf) s) r ->
  (fs_read f buf r s = Ret (RNull, fs_close s, buf) /\ (r = PErr \/ zlen f <= fs_seek s)) \/
  exists k size buf', r = PN k /\ 0 < k /\
    size = Z.min (k - fs_remainder s) (fs_logical (zlen buf) s) /\
    fs_read f buf r s = Ret (RPtr (fs_remainder s) size,
       {| fs_size := fs_size s; fs_offset := fs_offset s; fs_bytesRead := fs_bytesRead s + size;
          fs_aligned := fs_aligned s; fs_fd := true |}, buf') /\
    zlen buf' = zlen buf /\ fs_seek s + k <= zlen f /\
    fs_remainder s + size <= zlen buf /\ size <= fs_size s - fs_bytesRead s /\
    (0 < size -> slice buf' (fs_remainder s) size = slice f (fs_pos s) size /\
       fs_pos s + size <= zlen f) /\
    (fs_aligned s = false -> 0 < size).
Proof.
  intros L BO P. pose proof (live_facts _ _ L BO) as (F1 & F2 & F3 & F4 & F5 & F6 & F7).
  destruct L as (L1 & L2 & L3).
  unfold fs_read. unfold fs_error, fs_finished. rewrite L3. cbn [negb orb].
  destruct (Z.eqb_spec (fs_bytesRead s) (fs_size s)); [lia|]. cbn [andb].
  destruct (Z.ltb_spec (fs_physical (zlen buf) s) 0); [lia|].
  destruct (Z.ltb_spec (zlen buf) (fs_physical (zlen buf) s)); [lia|]. cbn [orb].
  destruct r as [|k]; [left; auto|]. cbn in P. destruct P as (P1 & P2 & P3).
  destruct (Z.eqb_spec k 0) as [E|E]; [left; auto|]. right.
  assert (Hs : 0 <= fs_seek s) by (unfold fs_seek; lia).
  assert (Hk : fs_seek s + k <= zlen f) by lia.
  exists k, (Z.min (k - fs_remainder s) (fs_logical (zlen buf) s)),
    (slice f (fs_seek s) k ++ skipn (Z.to_nat k) buf).
  split; [reflexivity|]. split; [lia|]. split; [reflexivity|].
  split.
  { destruct (Z.ltb_spec (fs_logical (zlen buf) s) (k - fs_remainder s)) as [Ho|Ho].
    - destruct (fs_aligned s) eqn:Ea.
      + cbn [andb negb]. rewrite Z.min_r by lia. reflexivity.
      + destruct (F7 eq_refl). lia.
    - cbn [andb]. rewrite Z.min_l by lia. reflexivity. }
  split.
  { rewrite zlen_app, zlen_slice by lia. unfold zlen in *. rewrite skipn_length. lia. }
  split; [exact Hk|]. split; [lia|]. split; [lia|]. split.
  - intros Hp. split; [|unfold fs_seek in Hk; lia].
    rewrite slice_of_put by lia. f_equal. unfold fs_seek; lia.
  - intros Ea. destruct (F7 Ea) as [Z1 Z2]. lia.
Qed.

Definition result_ok (f : list Z) (off size : Z) (n0 n : nat) (direct whole : bool) (rs : list pres)
    (o : outcome sendres) : Prop :=
  match o with
  | Ret (SAll sent) => sent = slice f off size /\ zlen sent = size
  | Ret (SError sent) => prefix_ok f off size sent /\ (whole = true -> In PErr rs)
  | Ret (SPending sent) => prefix_ok f off size sent /\ Z.of_nat n <= zlen sent - Z.of_nat n0
  | Crash => direct = true /\ whole = false
  | Undef => False
  end.

Lemma send_loop_ok rs : forall f buf s sent whole,
  0 <= fs_offset s -> 0 <= fs_bytesRead s <= fs_size s -> fs_fd s = true ->
  buffer_ok (zlen buf) (fs_aligned s) -> answers_ok rs f buf s ->
  (whole = true -> fs_offset s + fs_size s <= zlen f /\ (fs_aligned s = true -> answers_direct rs f buf s)) ->
  sent = slice f (fs_offset s) (fs_bytesRead s) -> zlen sent = fs_bytesRead s ->
  result_ok f (fs_offset s) (fs_size s) (Z.to_nat (fs_bytesRead s)) (length rs) (fs_aligned s) whole rs
    (send_loop rs f buf s sent).
Proof.
  induction rs as [|r rs IH]; intros f buf s sent whole H1 H2 H3 HB HA HW HS HZ.
  - cbn [send_loop]. destruct (fs_finished s) eqn:Ef.
    + unfold fs_finished in Ef. apply andb_prop in Ef as [Ef _]. apply Z.eqb_eq in Ef.
      cbn. rewrite HS, <- Ef. split; [reflexivity|]. rewrite <- HS, HZ; reflexivity.
    + cbn. unfold prefix_ok. rewrite HZ. repeat split; auto; lia.
  - cbn [send_loop]. destruct (fs_finished s) eqn:Ef.
    { unfold fs_finished in Ef. apply andb_prop in Ef as [Ef _]. apply Z.eqb_eq in Ef.
      cbn. rewrite HS, <- Ef. split; [reflexivity|]. rewrite <- HS, HZ; reflexivity. }
    assert (L : live s).
    { split; [exact H1|]. split; [|exact H3]. unfold fs_finished, fs_error in Ef. rewrite H3 in Ef.
      cbn in Ef. rewrite andb_true_r in Ef. apply Z.eqb_neq in Ef. lia. }
    cbn [answers_ok] in HA. destruct HA as [HA1 HA2].
    pose proof (live_facts _ _ L HB) as (F1 & F2 & F3 & F4 & F5 & F6 & F7).
    destruct (read_step f buf r s L HB HA1) as [[E Hr]|(k & size & buf' & Er & Hk & Hsz & E & B1 & B2 & B3 & B4 & B5 & B6)].
    + rewrite E. cbn. unfold prefix_ok. rewrite HZ. repeat split; auto; [lia|].
      intros W. left. destruct Hr as [Hr|Hr]; [congruence|]. exfalso.
      destruct (HW W) as [W1 _]. unfold fs_seek, fs_pos in *. destruct L as (_ & L2 & _). lia.
    + rewrite E. cbn [obind]. unfold fs_error at 1. cbn [fs_fd negb].
      destruct (Z.leb_spec size 0) as [Hle|Hgt].
      * cbn. split.
        -- destruct (fs_aligned s) eqn:Ea; [reflexivity|]. specialize (B6 eq_refl). lia.
        -- destruct whole; [exfalso|reflexivity]. destruct (HW eq_refl) as [W1 W2].
           destruct (fs_aligned s) eqn:Ea; [|specialize (B6 eq_refl); lia].
           specialize (W2 eq_refl). cbn [answers_direct] in W2. destruct W2 as [D _].
           rewrite Er in D. cbn in D.
           assert (Hkr : fs_remainder s < k).
           { destruct D as [D|D].
             - specialize (F6 eq_refl). unfold kDiskBlockSize in *.
               rewrite Z.rem_mod_nonneg in D by lia. pose proof (Z.div_mod k 4096 ltac:(lia)).
               assert (0 < k / 4096) by lia. lia.
             - unfold fs_seek, fs_pos in *. destruct L as (_ & L2 & _). lia. }
           lia.
      * destruct (B5 Hgt) as [G1 G2]. rewrite G1.
        set (s' := {| fs_size := fs_size s; fs_offset := fs_offset s; fs_bytesRead := fs_bytesRead s + size;
                      fs_aligned := fs_aligned s; fs_fd := true |}) in *.
        rewrite E in HA2.
        assert (R := IH f buf' s' (sent ++ slice f (fs_pos s) size) whole).
        assert (Z1 : zlen (slice f (fs_pos s) size) = size).
        { apply zlen_slice; [unfold fs_pos; lia|lia|exact G2]. }
        assert (R' : result_ok f (fs_offset s') (fs_size s') (Z.to_nat (fs_bytesRead s')) (length rs) (fs_aligned s') whole rs
            (send_loop rs f buf' s' (sent ++ slice f (fs_pos s) size))).
        { apply R; try (cbn; lia); try reflexivity.
          - cbn. rewrite B1. exact HB.
          - exact HA2.
          - intros W. destruct (HW W) as [W1 W2]. split; [exact W1|]. intros Ea.
            specialize (W2 Ea). cbn [answers_direct] in W2. rewrite E in W2. exact (proj2 W2).
          - cbn. rewrite HS. rewrite slice_app_split by lia. reflexivity.
          - cbn. rewrite zlen_app, Z1, HZ. reflexivity. }
        clear R IH. cbn in R'.
        destruct (send_loop rs f buf' s' (sent ++ slice f (fs_pos s) size)) as [[x|x|x]| |]; cbn in R' |- *; auto.
        -- destruct R' as [R1 R2]. split; [exact R1|]. intros W; right; exact (R2 W).
        -- destruct R' as [R1 R2]. split; [exact R1|]. lia.
Qed.

Lemma send_all rs f buf size off direct : 0 <= off -> 0 <= size ->
  buffer_ok (zlen buf) direct -> answers_ok rs f buf (fs_open size off direct) ->
  off + size <= zlen f -> (direct = true -> answers_direct rs f buf (fs_open size off direct)) ->
  match send_loop rs f buf (fs_open size off direct) [] with
  | Ret (SAll sent) => sent = slice f off size /\ zlen sent = size
  | Ret (SError sent) => prefix_ok f off size sent /\ In PErr rs
  | Ret (SPending sent) => prefix_ok f off size sent /\ zlen rs <= zlen sent
  | Crash | Undef => False
  end.
Proof.
  intros H1 H2 HB HA HW HD.
  pose proof (send_loop_ok rs f buf (fs_open size off direct) [] true) as R.
  cbn [fs_open fs_offset fs_bytesRead fs_size fs_fd fs_aligned] in R.
  specialize (R H1 ltac:(lia) eq_refl HB HA (fun _ => conj HW HD) eq_refl eq_refl).
  destruct (send_loop rs f buf _ []) as [[x|x|x]| |]; cbn in R; auto.
  - destruct R as [R1 R2]; auto.
  - destruct R as [R1 R2]; split; [exact R1|unfold zlen at 1; lia].
  - destruct R; discriminate.
Qed.
Lemma send_never_wrong rs f buf size off direct : 0 <= off -> 0 <= size ->
  buffer_ok (zlen buf) direct -> answers_ok rs f buf (fs_open size off direct) ->
  match send_loop rs f buf (fs_open size off direct) [] with
  | Ret (SAll sent) => sent = slice f off size /\ zlen sent = size
  | Ret (SError sent) => prefix_ok f off size sent
  | Ret (SPending sent) => prefix_ok f off size sent /\ zlen rs <= zlen sent
  | Crash => direct = true
  | Undef => False
  end.
Proof.
  intros H1 H2 HB HA.
  pose proof (send_loop_ok rs f buf (fs_open size off direct) [] false) as R.
  cbn [fs_open fs_offset fs_bytesRead fs_size fs_fd fs_aligned] in R.
  specialize (R H1 ltac:(lia) eq_refl HB HA ltac:(discriminate) eq_refl eq_refl).
  destruct (send_loop rs f buf _ []) as [[x|x|x]| |]; cbn in R; auto.
  - destruct R as [R1 R2]; auto.
  - destruct R as [R1 R2]; split; [exact R1|unfold zlen at 1; lia].
  - destruct R; auto.
Qed.
Lemma shrunk_error rs f buf size off : 0 <= off -> 0 <= size -> zlen f < off + size -> 0 < size ->
  buffer_ok (zlen buf) false -> answers_ok rs f buf (fs_open size off false) ->
  size <= zlen rs ->
  exists sent, send_loop rs f buf (fs_open size off false) [] = Ret (SError sent) /\
    prefix_ok f off size sent /\ zlen sent < size.
Proof.
  intros H1 H2 HF HS HB HA HR. pose proof (send_never_wrong rs f buf size off false H1 H2 HB HA) as R.
  assert (NB : forall x, x = slice f off (zlen x) -> zlen x <= Z.max 0 (zlen f - off)).
  { intros x E. rewrite E. unfold slice, zlen. rewrite firstn_length, skipn_length. lia. }
  destruct (send_loop rs f buf _ []) as [[x|x|x]| |]; try contradiction; try discriminate.
  - destruct R as [E EZ]. exfalso. rewrite <- EZ in E. specialize (NB x E). lia.
  - exists x; split; [reflexivity|]. split; [exact R|]. destruct R as [E _]. specialize (NB x E). lia.
  - exfalso. destruct R as [[E _] EZ]. specialize (NB x E). lia.
Qed.
Lemma advance_rest (f : list Z) s n : 0 <= n <= fs_size s -> 0 <= fs_offset s ->
  slice f (fs_offset s) n ++ slice f (fs_offset (fs_advance s n)) (fs_size (fs_advance s n))
  = slice f (fs_offset s) (fs_size s).
Proof.
  intros H1 H2. cbn. rewrite <- slice_app_split by lia. replace (n + (fs_size s - n)) with (fs_size s) by lia. reflexivity.
Qed.
