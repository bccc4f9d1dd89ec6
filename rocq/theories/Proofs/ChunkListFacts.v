From Verif Require Export Proofs.ProtocolCodecFacts Model.ChunkList Spec.ChunkListSpec.

Local Opaque Z.pow.

(** ---- small facts on arrays ---- *)
Lemma slice_splice_after {A} (l : list A) i bs a n :
  0 <= i -> i + zlen bs <= zlen l -> i + zlen bs <= a -> 0 <= n ->
  slice (splice l i bs) a n = slice l a n.
Proof.
  intros H0 Hl Ha Hn; pose proof (zlen_nonneg bs).
  unfold slice; f_equal; unfold splice.
  rewrite !skipn_app, skipn_skipn_add.
  unfold zlen in *.
  rewrite (skipn_all2 (firstn (Z.to_nat i) l)) by (rewrite firstn_length; lia).
  rewrite (skipn_all2 bs) by (rewrite firstn_length; lia).
  cbn [app]; f_equal; rewrite firstn_length; lia.
Qed.

Lemma slice_prefix {A} (h b r : list A) : slice (h ++ b ++ r) (zlen h) (zlen b) = b.
Proof.
  unfold slice, zlen; rewrite !Nat2Z.id, skipn_app, skipn_all, Nat.sub_diag.
  cbn [app skipn]; rewrite firstn_app, firstn_all, Nat.sub_diag; cbn [firstn].
  apply app_nil_r.
Qed.
Lemma slice0_prefix {A} (b r : list A) : slice (b ++ r) 0 (zlen b) = b.
Proof. exact (slice_prefix [] b r). Qed.
Lemma skipn_zlen_prefix {A} (b r : list A) : skipn (Z.to_nat (zlen b)) (b ++ r) = r.
Proof. unfold zlen; rewrite Nat2Z.id, skipn_app, skipn_all, Nat.sub_diag; reflexivity. Qed.

Definition fc_bytes (fs : list file_chunks) : list Z := flat_map file_chunks_bytes fs.

Lemma encFC_prefix bufSize fs : forall buf off num,
  Forall (sendable bufSize) fs -> 4 <= off -> bufSize <= zlen buf ->
  exists p q, fs = p ++ q /\
    encodeFCList_loop bufSize 4 fs buf off num
      = Ret (num + zlen p, splice buf off (fc_bytes p), off + zlen (fc_bytes p)) /\
    (off <= bufSize -> off + zlen (fc_bytes p) <= bufSize) /\
    (off = 4 -> fs <> [] -> p <> []).
Proof.
  induction fs as [|f fs IH]; intros buf off num Hf H4 Hs.
  - exists [], []; split; [reflexivity|]; cbn [encodeFCList_loop fc_bytes flat_map].
    change (zlen (@nil file_chunks)) with 0; change (zlen (@nil Z)) with 0.
    rewrite splice_nil, !Z.add_0_r; split; [reflexivity|]; split; [lia|congruence].
  - inversion Hf as [|? ? (Hok & Hn & Hfit) Hf']; subst; cbn [encodeFCList_loop].
    destruct (Z.ltb_spec bufSize (maxEncodeLen f + 4)); [lia|].
    destruct (Z.leb_spec bufSize (maxEncodeLen f + off)).
    + exists [], (f :: fs); split; [reflexivity|]; cbn [fc_bytes flat_map].
      change (zlen (@nil file_chunks)) with 0; change (zlen (@nil Z)) with 0.
      rewrite splice_nil, !Z.add_0_r; split; [reflexivity|]; split; [lia|intros; lia].
    + pose proof (file_chunks_bytes_len f Hok Hn) as Hlen.
      pose proof (zlen_nonneg (file_chunks_bytes f)).
      destruct (Encodes_FileChunks f Hok buf bufSize off ltac:(lia) Hs) as [r [Er [Hok' [Ht _]]]].
      rewrite Er; cbn [obind].
      destruct (Z.leb_spec (off + zlen (file_chunks_bytes f)) bufSize); [|lia].
      destruct (Ht Hok') as [Hb Hp]; rewrite Hb, Hp.
      destruct (IH (splice buf off (file_chunks_bytes f)) (off + zlen (file_chunks_bytes f)) (num + 1))
        as [p [q [Epq [El [Hle _]]]]]; [exact Hf'|lia|rewrite zlen_splice; lia|].
      exists (f :: p), q; split; [cbn [app]; congruence|].
      cbn [fc_bytes flat_map]; fold (fc_bytes p); rewrite zlen_app, zlen_cons.
      split; [|split; [intros _; specialize (Hle ltac:(lia)); lia|intros _ _; discriminate]].
      rewrite El; pose proof (zlen_nonneg (fc_bytes p)).
      specialize (Hle ltac:(lia)).
      rewrite splice_app by (rewrite ?zlen_app; lia).
      do 2 f_equal; [|lia].
      f_equal; lia.
Qed.

Definition fc_msg (p : list file_chunks) : list Z := le_bytes 4 (zlen (fc_bytes p)) ++ fc_bytes p.

Lemma zlen_le_bytes n v : zlen (le_bytes n v) = Z.of_nat n.
Proof. unfold zlen; rewrite le_bytes_len; reflexivity. Qed.

Lemma send_round_spec bufSize done todo buf :
  Forall (sendable bufSize) todo -> todo <> [] -> 4 < bufSize -> bufSize < 2 ^ 31 ->
  bufSize <= zlen buf ->
  exists p q buf', todo = p ++ q /\ p <> [] /\ zlen (fc_bytes p) + 4 <= bufSize /\
    zlen buf' = zlen buf /\
    send_round bufSize (done ++ todo) buf (zlen done) = Ret (zlen p, fc_msg p, buf').
Proof.
  intros Hf Hne H4 Hb Hs; unfold send_round, encodeFileChunksInfoList.
  rewrite skipn_zlen_prefix.
  destruct (encFC_prefix bufSize todo buf 4 0 Hf ltac:(lia) Hs) as [p [q [Epq [El [Hle Hp]]]]].
  rewrite El; cbn [obind].
  specialize (Hle ltac:(lia)); specialize (Hp eq_refl Hne).
  pose proof (zlen_nonneg (fc_bytes p)) as Hnn.
  exists p, q, (store32 (splice buf 4 (fc_bytes p)) (4 + zlen (fc_bytes p) - 4)).
  split; [exact Epq|]; split; [exact Hp|]; split; [lia|].
  unfold store32; replace (4 + zlen (fc_bytes p) - 4) with (zlen (fc_bytes p)) by lia.
  assert (Hmod : zlen (fc_bytes p) mod 2 ^ 32 = zlen (fc_bytes p)).
  { apply Z.mod_small; change (2 ^ 32) with 4294967296; change (2 ^ 31) with 2147483648 in *; lia. }
  rewrite Hmod.
  assert (H4l : zlen (le_bytes 4 (zlen (fc_bytes p))) = 4) by (rewrite zlen_le_bytes; reflexivity).
  assert (Hzs : zlen (splice buf 4 (fc_bytes p)) = zlen buf) by (apply zlen_splice; lia).
  split; [rewrite zlen_splice; [exact Hzs|lia|lia]|].
  rewrite Z.add_0_l; do 3 f_equal.
  unfold fc_msg; rewrite slice_app_split by lia.
  assert (E1 : forall a b c d : list Z, a = c -> b = d -> a ++ b = c ++ d) by (intros; congruence).
  apply E1.
  - pose proof (slice_splice (splice buf 4 (fc_bytes p)) 0 (le_bytes 4 (zlen (fc_bytes p)))
      ltac:(lia) ltac:(lia)) as S1; rewrite H4l in S1; exact S1.
  - cbn [Z.add]; rewrite slice_splice_after by lia.
    apply slice_splice; lia.
Qed.

Lemma send_loop_spec fuel : forall bufSize done todo buf,
  Forall (sendable bufSize) todo -> 4 < bufSize -> bufSize < 2 ^ 31 ->
  bufSize <= zlen buf -> (length todo <= fuel)%nat ->
  exists parts, concat parts = todo /\
    Forall (fun p => p <> [] /\ zlen (fc_bytes p) + 4 <= bufSize) parts /\
    send_loop fuel bufSize (done ++ todo) buf (zlen done) = Ret (Some (map fc_msg parts)).
Proof.
  induction fuel as [|fuel IH]; intros bufSize done todo buf Hf H4 Hb Hs Hl.
  - destruct todo; [|cbn [length] in Hl; lia].
    exists []; split; [reflexivity|]; split; [constructor|].
    rewrite app_nil_r; cbn [send_loop]; destruct (Z.ltb_spec (zlen done) (zlen done)); [lia|reflexivity].
  - destruct todo as [|f todo].
    { exists []; split; [reflexivity|]; split; [constructor|].
      rewrite app_nil_r; cbn [send_loop]; destruct (Z.ltb_spec (zlen done) (zlen done)); [lia|reflexivity]. }
    cbn [send_loop]; rewrite zlen_app, zlen_cons.
    pose proof (zlen_nonneg todo).
    destruct (Z.ltb_spec (zlen done) (zlen done + (1 + zlen todo))); [|lia].
    destruct (send_round_spec bufSize done (f :: todo) buf Hf ltac:(discriminate) H4 Hb Hs)
      as [p [q [buf' [Epq [Hp [Hpl [Hzb Er]]]]]]].
    rewrite Er; cbn [obind].
    rewrite Epq in Hf, Hl; rewrite Epq.
    apply Forall_app in Hf; destruct Hf as [_ Hfq].
    rewrite app_length in Hl.
    assert (Hpl' : (1 <= length p)%nat) by (destruct p; [congruence|cbn [length]; lia]).
    destruct (IH bufSize (done ++ p) q buf' Hfq H4 Hb ltac:(lia) ltac:(lia)) as [parts [Hc [HF El]]].
    rewrite zlen_app in El; rewrite app_assoc, El; cbn [obind].
    exists (p :: parts); split; [cbn [concat]; congruence|]; split; [|reflexivity].
    constructor; [split; assumption|exact HF].
Qed.

Lemma read_into_exact cap b r : zlen b <= cap -> read_into cap (b ++ r) (zlen b) = Ret (Some (b, r)).
Proof.
  intros H; unfold read_into; pose proof (zlen_nonneg b); pose proof (zlen_nonneg r).
  rewrite zlen_app.
  replace (Z.min (Z.max 0 (zlen b)) (zlen b + zlen r)) with (zlen b) by lia.
  cbv zeta; destruct (Z.ltb_spec cap (zlen b)); [lia|].
  rewrite Z.eqb_refl, slice0_prefix, skipn_zlen_prefix; reflexivity.
Qed.

Lemma recv_loop_spec parts : forall fuel senderBuf bufSize acc rest,
  Forall (fun p => p <> [] /\ zlen (fc_bytes p) + 4 <= bufSize) parts ->
  Forall file_chunks_ok (concat parts) ->
  bufSize < 2 ^ 31 -> 4 <= senderBuf -> (length (concat (map fc_msg parts)) < fuel)%nat ->
  recv_loop fuel senderBuf bufSize (zlen acc + zlen (concat parts))
            (concat (map fc_msg parts) ++ rest) acc
  = Ret (RReceived (acc ++ concat parts) rest).
Proof.
  induction parts as [|p parts IH]; intros fuel senderBuf bufSize acc rest HF Hok Hb Hsb Hfuel.
  - cbn [map concat app]; rewrite app_nil_r.
    change (zlen (@nil file_chunks)) with 0; rewrite Z.add_0_r.
    destruct fuel; cbn [recv_loop];
      (destruct (Z.ltb_spec (zlen acc) (zlen acc)); [lia|]; rewrite Z.eqb_refl; reflexivity).
  - inversion HF as [|? ? [Hp Hpl] HF']; subst.
    cbn [map concat] in *; apply Forall_app in Hok; destruct Hok as [Hokp Hok].
    rewrite app_length in Hfuel; rewrite zlen_app.
    pose proof (zlen_nonneg (concat parts)).
    assert (Hp1 : 1 <= zlen p) by (destruct p; [congruence|rewrite zlen_cons; pose proof (zlen_nonneg p); lia]).
    destruct fuel as [|fuel]; [lia|]; cbn [recv_loop].
    destruct (Z.ltb_spec (zlen acc + (zlen p + zlen (concat parts))) (zlen acc)); [lia|].
    destruct (Z.eqb_spec (zlen acc) (zlen acc + (zlen p + zlen (concat parts)))); [lia|].
    unfold fc_msg at 1; rewrite <- !app_assoc.
    assert (H4l : zlen (le_bytes 4 (zlen (fc_bytes p))) = 4) by (rewrite zlen_le_bytes; reflexivity).
    pose proof (read_into_exact senderBuf (le_bytes 4 (zlen (fc_bytes p)))
       (fc_bytes p ++ concat (map fc_msg parts) ++ rest)) as R1.
    rewrite H4l in R1; rewrite (R1 Hsb); cbn [obind].
    pose proof (zlen_nonneg (fc_bytes p)) as Hnn.
    rewrite le_value_bytes.
    2:{ change (8 * Z.of_nat 4) with 32; change (2 ^ 32) with 4294967296.
        change (2 ^ 31) with 2147483648 in *; lia. }
    unfold sx; change (8 * 4 - 1) with 31.
    destruct (Z.ltb_spec (zlen (fc_bytes p)) (2 ^ 31)); [|lia].
    rewrite read_into_exact by lia; cbn [obind].
    unfold fc_bytes at 1; rewrite decodeFCList_bytes by exact Hokp; cbn [obind].
    assert (Hm : (4 <= length (fc_msg p))%nat).
    { unfold fc_msg; rewrite app_length, le_bytes_len; lia. }
    specialize (IH fuel senderBuf bufSize (acc ++ p) rest HF' Hok Hb Hsb ltac:(lia)).
    rewrite zlen_app in IH; rewrite Z.add_assoc, IH, app_assoc; reflexivity.
Qed.

Lemma chunk_list_exchange bufSize senderBuf fs buf rest :
  Forall (sendable bufSize) fs -> zlen fs < 2 ^ 63 ->
  17 <= bufSize < 2 ^ 31 -> bufSize <= zlen buf -> 16 <= senderBuf ->
  exists msgs,
    sendFileChunks (length fs) bufSize fs buf = Ret (Some msgs) /\
    readFileChunks senderBuf (concat msgs ++ rest) = Ret (RReceived fs rest).
Proof.
  intros Hf Hfl Hb Hs Hsb; unfold sendFileChunks.
  pose proof (zlen_nonneg fs).
  rewrite upd_in by lia.
  set (buf0 := splice buf 0 [CHUNKS_CMD]).
  assert (Hz0 : zlen buf0 = zlen buf) by (apply zlen_splice; change (zlen [CHUNKS_CMD]) with 1; lia).
  assert (Hb63 : in_nat63 bufSize).
  { unfold in_nat63; change (2 ^ 63) with 9223372036854775808; change (2 ^ 31) with 2147483648 in *; lia. }
  destruct (chunkscmd_roundtrip bufSize (zlen fs) buf0 bufSize 1 Hb63) as [buf1 [Ee _]];
    [unfold in_nat63; lia|lia|lia|unfold kChunksCmdLen; lia|].
  rewrite Ee; cbn [obind er_buf er_pos].
  destruct (Encodes_ChunksCmd bufSize (zlen fs) buf0 bufSize 1 ltac:(lia) ltac:(lia))
    as [r [Er [Hok [Ht _]]]].
  rewrite Ee in Er; injection Er as <-; cbn [er_ok er_buf er_pos] in *.
  destruct (Ht eq_refl) as [-> Hpos].
  set (W := le_bytes 8 bufSize ++ le_bytes 8 (zlen fs)) in *.
  assert (HW : zlen W = 16) by (unfold W; rewrite zlen_app, !zlen_le_bytes; reflexivity).
  rewrite HW in Hpos.
  assert (Hz1 : zlen (splice buf0 1 W) = zlen buf) by (rewrite zlen_splice; [exact Hz0|lia|lia]).
  destruct (send_loop_spec (length fs) bufSize [] fs (splice buf0 1 W) Hf ltac:(lia) ltac:(lia)
              ltac:(lia) ltac:(lia)) as [parts [Hc [HF El]]].
  change (zlen (@nil file_chunks)) with 0 in El; cbn [app] in El.
  rewrite El; cbn [obind].
  eexists; split; [reflexivity|].
  change (1 + kChunksCmdLen) with (1 + 16).
  assert (Hcmd : slice (splice buf0 1 W) 0 (1 + 16) = CHUNKS_CMD :: W).
  { rewrite <- HW; unfold buf0.
    change 1 with (0 + zlen [CHUNKS_CMD]) at 1.
    rewrite splice_app by (rewrite ?zlen_app; change (zlen [CHUNKS_CMD]) with 1; lia).
    replace (1 + zlen W) with (zlen ([CHUNKS_CMD] ++ W)) by (rewrite zlen_app; reflexivity).
    apply slice_splice; [lia|]; rewrite zlen_cons; lia. }
  rewrite Hcmd; cbn [concat app readFileChunks].
  rewrite Z.eqb_refl; cbn [negb].
  change kChunksCmdLen with 16; rewrite <- HW, <- app_assoc.
  rewrite read_into_exact by lia; cbn [obind].
  unfold W.
  pose proof (Decodes_ChunksCmd bufSize (zlen fs) Hb63 ltac:(unfold in_nat63; lia)) as HD.
  specialize (HD []); rewrite app_nil_r in HD; rewrite HD; cbn [obind].
  destruct (Z.ltb_spec bufSize 0); [lia|]; destruct (Z.ltb_spec (zlen fs) 0); [lia|]; cbn [orb].
  subst fs.
  pose proof (recv_loop_spec parts (S (length (concat (map fc_msg parts) ++ rest)))
                senderBuf bufSize [] rest HF) as R.
  change (zlen (@nil file_chunks)) with 0 in R; cbn [app] in R; rewrite Z.add_0_l in R.
  apply R; [|lia|lia|rewrite app_length; lia].
  eapply Forall_impl; [|exact Hf]; intros f [Hok' _]; exact Hok'.
Qed.

(** ---- entries that do not fit ---- *)
Lemma encFC_count bufSize fs : forall buf off num,
  Forall encodable fs -> 4 <= off -> bufSize <= zlen buf ->
  exists k buf' off', encodeFCList_loop bufSize 4 fs buf off num = Ret (num + k, buf', off') /\
    0 <= k <= zlen fs /\ zlen buf' = zlen buf /\ off <= off' <= Z.max off bufSize.
Proof.
  induction fs as [|f fs IH]; intros buf off num Hf H4 Hs; cbn [encodeFCList_loop].
  - exists 0, buf, off; rewrite Z.add_0_r; change (zlen (@nil file_chunks)) with 0.
    split; [reflexivity|]; repeat split; lia.
  - inversion Hf as [|? ? [Hok Hn] Hf']; subst; rewrite zlen_cons; pose proof (zlen_nonneg fs).
    destruct (Z.ltb_spec bufSize (maxEncodeLen f + 4)).
    { destruct (IH buf off num Hf' H4 Hs) as [k [b' [o' [E [Hk Hr]]]]].
      exists k, b', o'; split; [exact E|]; split; [lia|exact Hr]. }
    destruct (Z.leb_spec bufSize (maxEncodeLen f + off)).
    { exists 0, buf, off; rewrite Z.add_0_r; split; [reflexivity|]; repeat split; lia. }
    pose proof (file_chunks_bytes_len f Hok Hn) as Hlen.
    pose proof (zlen_nonneg (file_chunks_bytes f)).
    destruct (Encodes_FileChunks f Hok buf bufSize off ltac:(lia) Hs) as [r [Er [Hok' [Ht _]]]].
    rewrite Er; cbn [obind].
    destruct (Z.leb_spec (off + zlen (file_chunks_bytes f)) bufSize); [|lia].
    destruct (Ht Hok') as [Hb Hp]; rewrite Hb, Hp.
    destruct (IH (splice buf off (file_chunks_bytes f)) (off + zlen (file_chunks_bytes f)) (num + 1))
      as [k [b' [o' [E [Hk [Hz Ho]]]]]]; [exact Hf'|lia|rewrite zlen_splice; lia|].
    exists (1 + k), b', o'; split; [rewrite E; do 2 f_equal; f_equal; lia|].
    rewrite zlen_splice in Hz by lia; split; [lia|]; split; [exact Hz|lia].
Qed.

(** When the last entry does not fit, an encoding round started anywhere
    encodes fewer entries than are left. *)
Lemma encFC_count_last bufSize fs f buf num :
  Forall encodable (fs ++ [f]) -> bufSize <= maxEncodeLen f + 4 -> bufSize <= zlen buf ->
  exists k buf' off', encodeFCList_loop bufSize 4 (fs ++ [f]) buf 4 num = Ret (num + k, buf', off') /\
    0 <= k <= zlen fs /\ zlen buf' = zlen buf /\ 4 <= off' <= Z.max 4 bufSize.
Proof.
  intros Hf Hbig Hs.
  assert (HH : forall off num buf, bufSize <= zlen buf -> 4 <= off ->
    exists k buf' off', encodeFCList_loop bufSize 4 (fs ++ [f]) buf off num = Ret (num + k, buf', off') /\
    0 <= k <= zlen fs /\ zlen buf' = zlen buf /\ off <= off' <= Z.max off bufSize);
    [|apply HH; [exact Hs|lia]].
  clear buf num Hs; induction fs as [|g fs IH]; intros off num buf Hs H4; cbn [app] in *; cbn [encodeFCList_loop].
  - change (zlen (@nil file_chunks)) with 0.
    destruct (Z.ltb_spec bufSize (maxEncodeLen f + 4)).
    + exists 0, buf, off; rewrite Z.add_0_r; split; [reflexivity|]; repeat split; lia.
    + destruct (Z.leb_spec bufSize (maxEncodeLen f + off)); [|lia].
      exists 0, buf, off; rewrite Z.add_0_r; split; [reflexivity|]; repeat split; lia.
  - inversion Hf as [|? ? [Hok Hn] Hf']; subst; rewrite zlen_cons; pose proof (zlen_nonneg fs).
    destruct (Z.ltb_spec bufSize (maxEncodeLen g + 4)).
    { destruct (IH Hf' off num buf Hs H4) as [k [b' [o' [E [Hk Hr]]]]].
      exists k, b', o'; split; [exact E|]; split; [lia|exact Hr]. }
    destruct (Z.leb_spec bufSize (maxEncodeLen g + off)).
    { exists 0, buf, off; rewrite Z.add_0_r; split; [reflexivity|]; repeat split; lia. }
    pose proof (file_chunks_bytes_len g Hok Hn) as Hlen.
    pose proof (zlen_nonneg (file_chunks_bytes g)).
    destruct (Encodes_FileChunks g Hok buf bufSize off ltac:(lia) Hs) as [r [Er [Hok' [Ht _]]]].
    rewrite Er; cbn [obind].
    destruct (Z.leb_spec (off + zlen (file_chunks_bytes g)) bufSize); [|lia].
    destruct (Ht Hok') as [Hb Hp]; rewrite Hb, Hp.
    destruct (IH Hf' (off + zlen (file_chunks_bytes g)) (num + 1) (splice buf off (file_chunks_bytes g)))
      as [k [b' [o' [E [Hk [Hz Ho]]]]]]; [rewrite zlen_splice; lia|lia|].
    exists (1 + k), b', o'; split; [rewrite E; do 2 f_equal; f_equal; lia|].
    rewrite zlen_splice in Hz by lia; split; [lia|]; split; [exact Hz|lia].
Qed.

Lemma send_loop_diverges bufSize fs f : Forall encodable (fs ++ [f]) ->
  bufSize <= maxEncodeLen f + 4 -> 4 <= bufSize ->
  forall fuel buf written, bufSize <= zlen buf -> 0 <= written <= zlen fs ->
  send_loop fuel bufSize (fs ++ [f]) buf written = Ret None.
Proof.
  intros Hf Hbig H4 fuel; induction fuel as [|fuel IH]; intros buf written Hs Hw; cbn [send_loop].
  - rewrite zlen_app; change (zlen [f]) with 1; destruct (Z.ltb_spec written (zlen fs + 1)); [reflexivity|lia].
  - rewrite zlen_app; change (zlen [f]) with 1; destruct (Z.ltb_spec written (zlen fs + 1)); [|lia].
    unfold send_round, encodeFileChunksInfoList.
    assert (Hsk : skipn (Z.to_nat written) (fs ++ [f]) = skipn (Z.to_nat written) fs ++ [f]).
    { rewrite skipn_app. unfold zlen in Hw.
      replace (Z.to_nat written - length fs)%nat with 0%nat by lia; reflexivity. }
    rewrite Hsk.
    assert (Hf' : Forall encodable (skipn (Z.to_nat written) fs ++ [f])).
    { rewrite <- Hsk; rewrite Forall_forall in Hf |- *; intros x Hx; apply Hf.
      rewrite <- (firstn_skipn (Z.to_nat written) (fs ++ [f])); apply in_or_app; right; exact Hx. }
    destruct (encFC_count_last bufSize _ f buf 0 Hf' Hbig Hs) as [k [b' [o' [E [Hk [Hz Ho]]]]]].
    rewrite E; cbn [obind].
    rewrite IH; [reflexivity| |].
    + unfold store32; rewrite zlen_splice; [lia|lia|].
      rewrite zlen_le_bytes; lia.
    + unfold zlen in *; rewrite skipn_length in Hk; lia.
Qed.

Lemma sendFileChunks_diverges bufSize fs f buf :
  Forall encodable (fs ++ [f]) -> zlen (fs ++ [f]) < 2 ^ 63 ->
  bufSize <= maxEncodeLen f + 4 -> 17 <= bufSize < 2 ^ 31 -> bufSize <= zlen buf ->
  forall fuel, sendFileChunks fuel bufSize (fs ++ [f]) buf = Ret None.
Proof.
  intros Hf Hn Hbig Hb Hs fuel; unfold sendFileChunks.
  rewrite upd_in by lia.
  pose proof (zlen_nonneg (fs ++ [f])).
  set (buf0 := splice buf 0 [CHUNKS_CMD]).
  assert (Hz0 : zlen buf0 = zlen buf) by (apply zlen_splice; change (zlen [CHUNKS_CMD]) with 1; lia).
  assert (Hb63 : in_nat63 bufSize).
  { unfold in_nat63; change (2 ^ 63) with 9223372036854775808; change (2 ^ 31) with 2147483648 in *; lia. }
  destruct (Encodes_ChunksCmd bufSize (zlen (fs ++ [f])) buf0 bufSize 1 ltac:(lia) ltac:(lia))
    as [r [Er [Hok [Ht _]]]].
  rewrite Er; cbn [obind].
  assert (HW : zlen (le_bytes 8 bufSize ++ le_bytes 8 (zlen (fs ++ [f]))) = 16)
    by (rewrite zlen_app, !zlen_le_bytes; reflexivity).
  rewrite HW in *; destruct (Z.leb_spec (1 + 16) bufSize); [|lia].
  destruct (Ht Hok) as [-> _].
  rewrite send_loop_diverges; [reflexivity|exact Hf|exact Hbig|lia|rewrite zlen_splice; lia|].
  pose proof (zlen_nonneg fs); lia.
Qed.

(** Concrete witnesses. *)
Definition mk_chunks (n : nat) : list interval :=
  map (fun i => {| iv_start := 2 * Z.of_nat i; iv_end := 2 * Z.of_nat i + 1 |}) (seq 0 n).
Definition small_entry : file_chunks :=
  {| fc_seqId := 1; fc_fileName := [97]; fc_fileSize := 10; fc_chunks := mk_chunks 2 |}.
Definition big_entry : file_chunks :=
  {| fc_seqId := 2; fc_fileName := [98]; fc_fileSize := 1000; fc_chunks := mk_chunks 8 |}.

Lemma duplicate_witness :
  exists fs msgs got,
    Forall encodable fs /\
    sendFileChunks 5 128 fs (repeat 0 128) = Ret (Some msgs) /\
    readFileChunks 128 (concat msgs) = Ret (RReceived got []) /\
    fs = [big_entry; small_entry] /\ got = [small_entry; small_entry].
Proof.
  exists [big_entry; small_entry].
  eexists; exists [small_entry; small_entry].
  split.
  { unfold encodable, file_chunks_ok, in_nat63.
    repeat constructor; vm_compute; congruence. }
  split; [vm_compute; reflexivity|]; split; [vm_compute; reflexivity|]; split; reflexivity.
Qed.

Lemma diverge_witness :
  exists fs, Forall encodable fs /\
    forall fuel, sendFileChunks fuel 128 fs (repeat 0 128) = Ret None.
Proof.
  exists [big_entry].
  assert (Hf : Forall encodable ([] ++ [big_entry])).
  { unfold encodable, file_chunks_ok, in_nat63.
    repeat constructor; vm_compute; congruence. }
  split; [exact Hf|].
  apply (sendFileChunks_diverges 128 [] big_entry); try exact Hf; vm_compute; try congruence.
  split; congruence.
Qed.

Lemma overflow_witness :
  exists stream, bytes_ok stream /\ readFileChunks 256 stream = Undef.
Proof.
  exists ([CHUNKS_CMD] ++ le_bytes 8 4 ++ le_bytes 8 1 ++ le_bytes 4 100 ++ repeat 65 100).
  split; [|vm_compute; reflexivity].
  unfold bytes_ok, is_byte; apply Forall_forall; intros x Hx.
  assert (H : forallb (fun b => (0 <=? b) && (b <? 256))
     ([CHUNKS_CMD] ++ le_bytes 8 4 ++ le_bytes 8 1 ++ le_bytes 4 100 ++ repeat 65 100) = true)
    by (vm_compute; reflexivity).
  rewrite forallb_forall in H; specialize (H x Hx); lia.
Qed.

(** ---- what the sender refuses and accepts ---- *)
Lemma read_into_inv cap st n b r : read_into cap st n = Ret (Some (b, r)) -> st = b ++ r /\ zlen b = n.
Proof.
  unfold read_into; cbv zeta. destruct (_ <? _); [discriminate|].
  destruct (Z.eqb_spec (Z.min (Z.max 0 n) (zlen st)) n) as [E|]; [|discriminate].
  intros H; injection H as <- <-. pose proof (zlen_nonneg st).
  unfold slice; cbn [Z.to_nat skipn]. split; [symmetry; apply firstn_skipn|].
  unfold zlen in *. rewrite firstn_length. lia.
Qed.

Lemma recv_sound fuel : forall senderBuf bufSize n stream acc fs rest,
  recv_loop fuel senderBuf bufSize n stream acc = Ret (RReceived fs rest) ->
  zlen fs = n /\ exists used, stream = used ++ rest.
Proof.
  induction fuel as [|fuel IH]; intros sb bs n stream acc fs rest; cbn [recv_loop];
    (destruct (n <? zlen acc); [discriminate|]);
    (destruct (Z.eqb_spec (zlen acc) n) as [E|];
      [intros H; injection H as <- <-; split; [exact E|exists []; reflexivity]|]); [discriminate|].
  destruct (read_into sb stream 4) as [[[lb s1]|]| |] eqn:R1; cbn [obind]; try discriminate.
  destruct (read_into bs s1 _) as [[[data s2]|]| |] eqn:R2; cbn [obind]; try discriminate.
  destruct (decodeFileChunksInfoList data) as [[[l t]|]| |]; cbn [obind]; try discriminate.
  intros H. destruct (IH _ _ _ _ _ _ _ H) as [E [u Eu]]. split; [exact E|].
  apply read_into_inv in R1, R2. destruct R1 as [-> _], R2 as [-> _]. subst s2.
  exists (lb ++ data ++ u). rewrite <- !app_assoc; reflexivity.
Qed.

Lemma received_as_announced senderBuf stream fs rest :
  readFileChunks senderBuf stream = Ret (RReceived fs rest) ->
  exists cmd bufSize left used,
    stream = CHUNKS_CMD :: cmd ++ used ++ rest /\ zlen cmd = kChunksCmdLen /\
    decodeChunksCmd cmd = Ret (Some ((bufSize, zlen fs), left)) /\ 0 <= bufSize.
Proof.
  unfold readFileChunks. destruct stream as [|c st]; [discriminate|].
  destruct (Z.eqb_spec c CHUNKS_CMD) as [->|]; cbn [negb]; [|discriminate].
  destruct (read_into senderBuf st kChunksCmdLen) as [[[cmd s1]|]| |] eqn:R; cbn [obind]; try discriminate.
  destruct (decodeChunksCmd cmd) as [[[[b n] left]|]| |] eqn:D; cbn [obind]; try discriminate.
  destruct (Z.ltb_spec b 0) as [|Hb]; cbn [orb]; [discriminate|]. destruct (n <? 0); [discriminate|].
  intros H. apply recv_sound in H. destruct H as [En [u Eu]]. apply read_into_inv in R. destruct R as [-> L].
  exists cmd, b, left, u. rewrite Eu, En. auto.
Qed.

Lemma dec64_neg a rest : length a = 8%nat -> 2 ^ 63 <= le_value a < 2 ^ 64 ->
  decodeInt64FixedLength (a ++ rest) = Ret None.
Proof.
  intros Hl Ha. unfold decodeInt64FixedLength, decodeIntFixedLength.
  rewrite firstn_app, Hl, Nat.sub_diag, firstn_all2, zlen_app by lia. cbn [firstn]. rewrite app_nil_r.
  assert (zlen a = 8) by (unfold zlen; lia). pose proof (zlen_nonneg rest).
  destruct (Z.ltb_spec (zlen a + zlen rest) (Z.of_nat 8)); [lia|].
  unfold sx. change (8 * Z.of_nat 8) with 64. change (64 - 1) with 63.
  destruct (Z.ltb_spec (le_value a) (2 ^ 63)); [lia|].
  destruct (Z.ltb_spec (le_value a - 2 ^ 64) 0); [reflexivity|lia].
Qed.

Lemma negative_refused senderBuf a b rest : kChunksCmdLen <= senderBuf ->
  length a = 8%nat -> length b = 8%nat ->
  2 ^ 63 <= le_value a < 2 ^ 64 \/ 2 ^ 63 <= le_value b < 2 ^ 64 ->
  readFileChunks senderBuf (CHUNKS_CMD :: (a ++ b) ++ rest) = Ret RProtocolError.
Proof.
  intros Hs La Lb Hn. unfold readFileChunks. rewrite Z.eqb_refl; cbn [negb].
  assert (Hl : zlen (a ++ b) = kChunksCmdLen) by (rewrite zlen_app; unfold zlen; rewrite La, Lb; reflexivity).
  rewrite <- Hl, read_into_exact by lia. cbn [obind].
  assert (D : decodeChunksCmd (a ++ b) = Ret None).
  { unfold decodeChunksCmd. destruct Hn as [Ha|Hb].
    - unfold dbind at 1. rewrite (dec64_neg a b La Ha). reflexivity.
    - unfold dbind at 1.
      unfold decodeInt64FixedLength at 1, decodeIntFixedLength. rewrite firstn_app, La, Nat.sub_diag, firstn_all2 by lia. cbn [firstn]. rewrite app_nil_r.
      destruct (_ <? _); [reflexivity|]. destruct (_ <? 0); [reflexivity|]. cbn [obind].
      rewrite skipn_app, La, Nat.sub_diag, skipn_all2 by lia.
      unfold dbind. change (skipn 0 b) with b. cbn [app].
      rewrite <- (app_nil_r b), (dec64_neg b [] Lb Hb). reflexivity. }
  rewrite D; cbn [obind]; reflexivity.
Qed.

Lemma surplus_refused senderBuf cmd bufSize n left data fs left' rest : kChunksCmdLen <= senderBuf ->
  zlen cmd = kChunksCmdLen -> decodeChunksCmd cmd = Ret (Some ((bufSize, n), left)) ->
  zlen data <= bufSize -> bufSize < 2 ^ 31 -> decodeFileChunksInfoList data = Ret (Some (fs, left')) ->
  0 < n < zlen fs ->
  readFileChunks senderBuf (CHUNKS_CMD :: cmd ++ le_bytes 4 (zlen data) ++ data ++ rest) = Ret RProtocolError.
Proof.
  intros Hs Hl D Hd Hb Df Hn. unfold readFileChunks. rewrite Z.eqb_refl; cbn [negb].
  rewrite <- Hl, read_into_exact by lia. cbn [obind]. rewrite D; cbn [obind].
  pose proof (zlen_nonneg data).
  destruct (Z.ltb_spec bufSize 0); cbn [orb]; [lia|]. destruct (Z.ltb_spec n 0); [lia|].
  remember (length (le_bytes 4 (zlen data) ++ data ++ rest)) as k eqn:Ek.
  assert (Hk : (4 <= k)%nat) by (rewrite Ek, app_length, le_bytes_len; lia).
  destruct k as [|k]; [lia|]. cbn [recv_loop].
  change (zlen (@nil file_chunks)) with 0.
  destruct (Z.ltb_spec n 0); [lia|]. destruct (Z.eqb_spec 0 n); [lia|].
  assert (H4l : zlen (le_bytes 4 (zlen data)) = 4) by (rewrite zlen_le_bytes; reflexivity).
  pose proof (read_into_exact senderBuf (le_bytes 4 (zlen data)) (data ++ rest)) as R1.
  rewrite H4l in R1; rewrite R1 by (unfold kChunksCmdLen in *; lia); cbn [obind].
  assert (Sx : sx 4 (le_value (le_bytes 4 (zlen data))) = zlen data).
  { rewrite le_value_bytes.
    2:{ change (8 * Z.of_nat 4) with 32; change (2 ^ 32) with 4294967296.
        change (2 ^ 31) with 2147483648 in *; lia. }
    unfold sx; change (8 * 4 - 1) with 31. destruct (Z.ltb_spec (zlen data) (2 ^ 31)); [reflexivity|lia]. }
  rewrite Sx, read_into_exact by exact Hd. cbn [obind]. rewrite Df; cbn [obind app].
  destruct k as [|k]; [lia|]. cbn [recv_loop]. destruct (Z.ltb_spec n (zlen fs)); [reflexivity|lia].
Qed.
