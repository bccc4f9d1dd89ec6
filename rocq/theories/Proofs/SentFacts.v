(** The stream a sender writes means what the sender meant. *)
From Verif Require Import Model.SendStream Spec.SentSpec Spec.StreamSpec Proofs.BytesFacts Proofs.VarintFacts
  Proofs.ProtocolCodecFacts Proofs.LocalDecFacts Proofs.RecvFacts Proofs.RecvCmdFacts.

Local Opaque Z.pow Z.quot.

Lemma zlen_repeat {A} (a : A) n : 0 <= n -> zlen (repeat a (Z.to_nat n)) = n.
Proof. intros. unfold zlen. rewrite repeat_length. lia. Qed.
Lemma sent_ok cmd E bs max : Encodes E bs -> zlen cmd + zlen bs <= max -> 0 <= max ->
  sent cmd E max = Some (cmd ++ bs).
Proof.
  intros HE HL H0. unfold sent. pose proof (zlen_nonneg bs). pose proof (zlen_nonneg cmd).
  destruct (HE (repeat 0 (Z.to_nat max)) max (zlen cmd)) as (r & -> & Ok & Hb & _); [lia|rewrite zlen_repeat; lia|].
  destruct (Z.leb_spec (zlen cmd + zlen bs) max); [|lia]. rewrite Ok.
  destruct (Hb Ok) as (-> & ->). f_equal. f_equal.
  replace (zlen cmd + zlen bs - zlen cmd) with (zlen bs) by lia.
  apply slice_splice; rewrite ?zlen_repeat; lia.
Qed.
Lemma sent_settings_ok v s : in_nat31 v -> settings_ok s -> zlen (st_transferId s) <= 200 ->
  sent_settings v s = Some (SETTINGS_CMD :: settings_bytes v s) /\ zlen (settings_bytes v s) <= 240.
Proof.
  intros Hv Hs Hl.
  assert (L : zlen (settings_bytes v s) <= 240).
  { destruct Hs as (Hr & Hw & Hi). unfold settings_bytes, settings_body_bytes.
    assert (Hv' : in_nat63 v) by nat63. assert (Hr' : in_nat63 (st_readTimeoutMillis s)) by nat63.
    assert (Hw' : in_nat63 (st_writeTimeoutMillis s)) by nat63.
    pose proof (encC_len _ Hv'); pose proof (encC_len _ Hr'); pose proof (encC_len _ Hw').
    assert (zlen (encodeString_str (st_transferId s)) <= 2 + zlen (st_transferId s)) by (apply encS_len; lia).
    rewrite !zlen_app; destruct (12 <=? v);
      [change (zlen [settings_flags s]) with 1; lia|change (zlen (@nil Z)) with 0; lia]. }
  split; [|exact L]. unfold sent_settings. rewrite (sent_ok _ _ (settings_bytes v s)).
  - reflexivity.
  - apply Encodes_Settings; assumption.
  - change (zlen [SETTINGS_CMD]) with 1. unfold kMaxSettings, kMaxTransferIdLength. lia.
  - unfold kMaxSettings, kMaxTransferIdLength. lia.
Qed.
Lemma sent_size_ok n : in_nat63 n -> sent_size n = Some (SIZE_CMD :: encodeVarU64_str n).
Proof.
  intros Hn. unfold sent_size. rewrite (sent_ok _ _ (encodeVarU64_str n)).
  - reflexivity.
  - apply Encodes_encC, Hn.
  - change (zlen [SIZE_CMD]) with 1. pose proof (encC_len _ Hn). unfold kMaxSize. lia.
  - unfold kMaxSize. lia.
Qed.
Lemma to_i32_range x : in_i32 (to_i32 x).
Proof. unfold in_i32, to_i32. pose proof (Z.mod_pos_bound (x + 2 ^ 31) (2 ^ 32) ltac:(lia)).
  change (2 ^ 32) with 4294967296 in *. change (2 ^ 31) with 2147483648 in *. lia. Qed.
Lemma i32_i64 n : in_i32 n -> in_i64 n.
Proof.
  unfold in_i64, in_i32. change (2 ^ 31) with 2147483648. change (2 ^ 63) with 9223372036854775808. lia.
Qed.
Lemma footer_len n : in_i32 n -> 1 <= zlen (encodeVarI64_str n) <= 9.
Proof.
  intros H. unfold encodeVarI64_str. apply encodeVarU64_str_len.
  pose proof (encodeZigZag_range n (i32_i64 n H)) as R. unfold in_u64 in R. lia.
Qed.
Lemma sent_footer_ok sum : sent_footer sum = Some (FOOTER_CMD :: encodeVarI64_str (to_i32 sum)).
Proof.
  pose proof (to_i32_range sum) as R. unfold sent_footer. rewrite (sent_ok _ _ (encodeVarI64_str (to_i32 sum))).
  - reflexivity.
  - apply Encodes_VarI64, i32_i64, R.
  - change (zlen [FOOTER_CMD]) with 1. pose proof (footer_len _ R). unfold kMaxFooter. lia.
  - unfold kMaxFooter. lia.
Qed.
Lemma header_short v b : header_ok b -> zlen (bd_fileName b) <= 190 -> zlen (header_bytes v b) <= 238.
Proof.
  intros (Hn & Hs & Hf & Ho & Hd & Ha & Hp) Hl. unfold header_bytes.
  pose proof (encS_len (bd_fileName b) ltac:(lia)).
  pose proof (encC_len _ Hs); pose proof (encC_len _ Hf); pose proof (encC_len _ Ho);
  pose proof (encC_len _ Hd); pose proof (encC_len _ Hp).
  rewrite !zlen_app. destruct (13 <=? v); [rewrite zlen_app; change (zlen [bd_alloc b]) with 1;
    destruct (_ || _)|]; try change (zlen (@nil Z)) with 0; lia.
Qed.
Lemma int16_le16 n : 0 <= n < 32768 -> int16_le (n mod 256) ((n / 256) mod 256) = n.
Proof.
  intros H. unfold int16_le. pose proof (Z.div_mod n 256 ltac:(lia)) as D.
  pose proof (Z.mod_pos_bound n 256 ltac:(lia)).
  assert (0 <= n / 256 < 128) by (split; [apply Z.div_pos; lia|apply Z.div_lt_upper_bound; lia]).
  rewrite (Z.mod_small (n / 256) 256) by lia. change (2 ^ 15) with 32768.
  destruct (Z.ltb_spec (n mod 256 + 256 * (n / 256)) 32768); lia.
Qed.
Lemma sent_header_any v st b : header_ok b -> 4 + zlen (header_bytes v b) <= kMaxHeader ->
  sent_header v st b = Some (FILE_CMD :: st :: le16 (4 + zlen (header_bytes v b)) ++ header_bytes v b).
Proof.
  intros Hb L. unfold sent_header, sent.
  assert (Hk : kMaxHeader = 4150) by reflexivity.
  change (zlen [FILE_CMD; st; 0; 0]) with 4.
  destruct (EncodesN_Header v b Hb (repeat 0 (Z.to_nat kMaxHeader)) kMaxHeader 4) as (r & E & Ok & Hr & _);
    [lia|rewrite zlen_repeat; lia|].
  change (kMaxHeader <? 0) with false in E. cbv beta iota in E. rewrite E.
  destruct (Z.leb_spec (4 + zlen (header_bytes v b)) kMaxHeader); [|lia]. rewrite Ok.
  destruct (Hr Ok) as (-> & ->).
  replace (4 + zlen (header_bytes v b) - 4) with (zlen (header_bytes v b)) by lia.
  pose proof (zlen_nonneg (header_bytes v b)).
  rewrite slice_splice by (rewrite ?zlen_repeat; lia).
  rewrite zlen_app. change (zlen [FILE_CMD; st; 0; 0]) with 4. reflexivity.
Qed.
Lemma sent_header_ok v st b : header_ok b -> zlen (bd_fileName b) <= 190 ->
  sent_header v st b = Some (FILE_CMD :: st :: le16 (4 + zlen (header_bytes v b)) ++ header_bytes v b).
Proof.
  intros Hb Hl. pose proof (header_short v b Hb Hl) as L. apply sent_header_any; [exact Hb|].
  change kMaxHeader with 4150. lia.
Qed.
Lemma sent_done_ok v st n b buf : in_nat63 n -> in_nat63 b -> 256 <= zlen buf ->
  exists pad, sent_done v st n b buf = Some (DONE_CMD :: st :: done_bytes v n b ++ pad) /\
    zlen (done_bytes v n b ++ pad) = 254 /\ (bytes_ok buf -> bytes_ok pad).
Proof.
  intros Hn Hb HB. unfold sent_done.
  assert (Hl : zlen (done_bytes v n b) <= 18).
  { unfold done_bytes; rewrite zlen_app; pose proof (encC_len _ Hn); pose proof (encC_len _ Hb).
    destruct (16 <=? v); [lia|change (zlen (@nil Z)) with 0; lia]. }
  pose proof (zlen_nonneg (done_bytes v n b)).
  assert (Kd : kMaxDone = 22) by reflexivity. assert (Kb : kMinBufLength = 256) by reflexivity.
  destruct (Encodes_Done v n b Hn Hb buf kMaxDone 2) as (r & E & Ok & Hr & _); [lia|lia|].
  rewrite E. destruct (Z.leb_spec (2 + zlen (done_bytes v n b)) kMaxDone); [|lia]. rewrite Ok.
  destruct (Hr Ok) as (-> & _). set (d := done_bytes v n b) in *.
  assert (Ls : zlen (splice buf 2 d) = zlen buf) by (apply zlen_splice; lia).
  exists (slice (splice buf 2 d) (2 + zlen d) (254 - zlen d)).
  assert (Es : slice (splice buf 2 d) 2 254 = d ++ slice (splice buf 2 d) (2 + zlen d) (254 - zlen d)).
  { replace 254 with (zlen d + (254 - zlen d)) at 1 by lia. rewrite slice_app_split by lia.
    rewrite slice_splice by lia. reflexivity. }
  split; [rewrite Kb; change (256 - 2) with 254; rewrite Es; reflexivity|].
  split; [rewrite <- Es; apply zlen_slice; lia|].
  intros Hbb. assert (Eq : slice (splice buf 2 d) (2 + zlen d) (254 - zlen d) = slice buf (2 + zlen d) (254 - zlen d)).
  { apply rd_ext; [rewrite !zlen_slice; lia|]. intros i.
    destruct (Z.ltb_spec i 0); [rewrite !rd_neg by lia; reflexivity|].
    destruct (Z.ltb_spec i (254 - zlen d)).
    - rewrite !rd_slice by lia. rewrite rd_splice by lia.
      destruct (Z.ltb_spec (2 + zlen d + i) (2 + zlen d)); [lia|]. rewrite andb_false_r. reflexivity.
    - rewrite !rd_ge; [reflexivity| |]; rewrite zlen_slice; lia. }
  rewrite Eq. apply bytes_ok_slice, Hbb.
Qed.

(** The commands on the stream. *)
Lemma slice_app_l (a b : list Z) i k : 0 <= i -> 0 <= k -> i + k <= zlen a -> slice (a ++ b) i k = slice a i k.
Proof.
  intros. pose proof (zlen_nonneg b). apply rd_ext; [rewrite !zlen_slice; rewrite ?zlen_app; lia|]. intros j.
  destruct (Z.ltb_spec j 0); [rewrite !rd_neg by lia; reflexivity|].
  destruct (Z.ltb_spec j k).
  - rewrite !rd_slice by lia. apply rd_app_l. lia.
  - assert (zlen (slice (a ++ b) i k) = k) by (apply zlen_slice; rewrite ?zlen_app; lia).
    assert (zlen (slice a i k) = k) by (apply zlen_slice; lia). rewrite !rd_ge by lia. reflexivity.
Qed.
Lemma slice_mid (a b c : list Z) k : 0 <= k -> k <= zlen b + zlen c -> zlen b <= k ->
  slice (a ++ b ++ c) (zlen a) k = b ++ slice c 0 (k - zlen b).
Proof.
  intros H0 H1 H2. unfold slice at 1. rewrite skipn_zlen_app.
  rewrite firstn_app_zlen by lia. reflexivity.
Qed.

Section Stream.
Context (p : rparams) (v : Z) (sum : bool).
Definition md (slack : Z) : smode := {| ss_version := v; ss_checksum := sum; ss_slack := slack |}.

Lemma size_step n slack tail : in_nat63 n -> 0 <= slack <= 900 -> 256 <= zlen tail ->
  exists slack', slack <= slack' <= slack + 10 /\
  spec_cmd p (md slack) ((SIZE_CMD :: encodeVarU64_str n) ++ tail) = Some (SNext [RSize n] (md slack') tail).
Proof.
  intros Hn Hs Ht. pose proof (encC_len _ Hn) as L. set (e := encodeVarU64_str n) in *.
  exists (slack + (1 + zlen e)). split; [lia|]. unfold spec_cmd.
  assert (Lz : zlen ((SIZE_CMD :: e) ++ tail) = 1 + zlen e + zlen tail) by (rewrite zlen_app, zlen_cons; lia).
  destruct (Z.ltb_spec (zlen ((SIZE_CMD :: e) ++ tail)) 256); [lia|].
  cbn [app]. change (SIZE_CMD =? DONE_CMD) with false. change (SIZE_CMD =? FILE_CMD) with false.
  change (SIZE_CMD =? SETTINGS_CMD) with false. change (SIZE_CMD =? SIZE_CMD) with true. cbv iota.
  unfold spec_size. change (SIZE_CMD :: e ++ tail) with ([SIZE_CMD] ++ e ++ tail).
  change 1 with (zlen [SIZE_CMD]) at 1. rewrite slice_mid by lia.
  unfold decodeSize, e. rewrite (Decodes_Int64C n Hn). fold e.
  assert (Lr : zlen (slice tail 0 (10 - zlen e)) = 10 - zlen e) by (apply zlen_slice; lia).
  rewrite Lr. cbn [md ss_slack ss_version ss_checksum].
  replace (11 - (10 - zlen e)) with (1 + zlen e) by lia.
  destruct (Z.leb_spec (slack + (1 + zlen e)) 1000); [|lia].
  rewrite app_assoc. replace (1 + zlen e) with (zlen ([SIZE_CMD] ++ e)) at 2 by (rewrite zlen_app; reflexivity).
  rewrite skipn_zlen_app. reflexivity.
Qed.

Lemma settings_step s tail slack sum0 : in_nat31 v -> 12 <= v -> settings_ok s -> zlen (st_transferId s) <= 200 ->
  st_transferId s = rp_id p -> st_sendFileChunks s = false -> st_enableChecksum s = sum ->
  0 <= slack <= 700 -> 256 <= zlen tail ->
  exists slack', slack <= slack' <= slack + 241 /\
  spec_cmd p {| ss_version := v; ss_checksum := sum0; ss_slack := slack |} ((SETTINGS_CMD :: settings_bytes v s) ++ tail)
    = Some (SNext [RSettings s] (md slack') tail).
Proof.
  intros Hv H12 Hs Hl Hid Hc Hsum Hsl Ht.
  destruct (sent_settings_ok v s Hv Hs Hl) as [_ L]. pose proof (zlen_nonneg (settings_bytes v s)) as Lp.
  exists (slack + (1 + zlen (settings_bytes v s))). split; [lia|]. unfold spec_cmd.
  assert (Lz : zlen ((SETTINGS_CMD :: settings_bytes v s) ++ tail) = 1 + zlen (settings_bytes v s) + zlen tail)
    by (rewrite zlen_app, zlen_cons; lia).
  destruct (Z.ltb_spec (zlen ((SETTINGS_CMD :: settings_bytes v s) ++ tail)) 256); [lia|].
  cbn [app]. change (SETTINGS_CMD =? DONE_CMD) with false. change (SETTINGS_CMD =? FILE_CMD) with false.
  change (SETTINGS_CMD =? SETTINGS_CMD) with true. cbv iota.
  unfold spec_settings. unfold settings_bytes in *. set (e := encodeVarU64_str v) in *. set (sb := settings_body_bytes v s) in *.
  assert (Le : 1 <= zlen e <= 9) by (apply encodeVarU64_str_len; unfold in_nat31 in Hv; lia).
  rewrite zlen_app in *. pose proof (zlen_nonneg sb).
  change (SETTINGS_CMD :: (e ++ sb) ++ tail) with ([SETTINGS_CMD] ++ (e ++ sb) ++ tail).
  rewrite <- (app_assoc e sb tail). change 1 with (zlen [SETTINGS_CMD]) at 1.
  rewrite slice_mid by (rewrite ?zlen_app; lia).
  unfold decodeVersion, e. rewrite (Decodes_Int32C v Hv). fold e.
  assert (Lr : zlen (slice (sb ++ tail) 0 (9 - zlen e)) = 9 - zlen e) by (apply zlen_slice; rewrite ?zlen_app; lia).
  rewrite Lr. cbn [ss_version]. unfold settings_version. rewrite Z.eqb_refl.
  replace (10 - (9 - zlen e)) with (1 + zlen e) by lia.
  rewrite app_assoc. replace (1 + zlen e) with (zlen ([SETTINGS_CMD] ++ e)) at 1 by (rewrite zlen_app; reflexivity).
  rewrite slice_mid by lia.
  unfold sb. rewrite (Decodes_SettingsBody v s Hs). fold sb.
  assert (Hvis : settings_visible v s = s).
  { unfold settings_visible. destruct (Z.leb_spec 12 v); [|lia]. destruct s; reflexivity. }
  rewrite Hvis. destruct (list_eq_dec Z.eq_dec (st_transferId s) (rp_id p)); [|congruence].
  rewrite Hc. assert (Lr2 : zlen (slice tail 0 (256 - (1 + zlen e) - zlen sb)) = 256 - (1 + zlen e) - zlen sb)
    by (apply zlen_slice; lia).
  rewrite Lr2. cbn [ss_slack].
  replace (256 - (256 - (1 + zlen e) - zlen sb)) with (1 + (zlen e + zlen sb)) by lia.
  destruct (Z.leb_spec (slack + (1 + (zlen e + zlen sb))) 1000); [|lia].
  rewrite app_assoc.
  replace (1 + (zlen e + zlen sb)) with (zlen (([SETTINGS_CMD] ++ e) ++ sb)) at 2
    by (rewrite !zlen_app; change (zlen [SETTINGS_CMD]) with 1; lia).
  rewrite skipn_zlen_app. unfold md. rewrite Hsum. reflexivity.
Qed.

Lemma done_step slack st n b pad : 16 <= v -> in_nat63 n -> in_nat63 b -> zlen (done_bytes v n b ++ pad) = 254 ->
  spec_cmd p (md slack) (DONE_CMD :: st :: done_bytes v n b ++ pad) = Some (SStop [RDone st n b] GoWait).
Proof.
  intros Hv Hn Hb L. unfold spec_cmd.
  assert (Lz : zlen (DONE_CMD :: st :: done_bytes v n b ++ pad) = 256) by (rewrite !zlen_cons; lia).
  destruct (Z.ltb_spec (zlen (DONE_CMD :: st :: done_bytes v n b ++ pad)) 256); [lia|].
  change (DONE_CMD =? DONE_CMD) with true. cbv iota. unfold spec_done. rewrite Lz. cbn [Z.eqb Pos.eqb].
  change (rd (DONE_CMD :: st :: done_bytes v n b ++ pad) 1) with (Some st).
  assert (Hl : zlen (done_bytes v n b) <= 18).
  { unfold done_bytes; rewrite zlen_app; pose proof (encC_len _ Hn); pose proof (encC_len _ Hb).
    destruct (16 <=? v); [lia|change (zlen (@nil Z)) with 0; lia]. }
  rewrite zlen_app in L.
  change (DONE_CMD :: st :: done_bytes v n b ++ pad) with ([DONE_CMD; st] ++ done_bytes v n b ++ pad).
  change 2 with (zlen [DONE_CMD; st]). rewrite slice_mid by lia.
  cbn [md ss_version]. rewrite (Decodes_Done v n b (-1) Hn Hb). destruct (Z.leb_spec 16 v); [|lia]. reflexivity.
Qed.

Definition blk_events (st : Z) (b : block_details) (data : list Z) : list revent :=
  [RHeader (header_visible v b); RWrite data; RStored] ++
  (if sum then [RFooter (to_i32 (crc32c data 0)); RVerified (header_visible v b)]
   else if rp_tags p then [] else [RVerified (header_visible v b)]).

Lemma block_step slack st b data tail : 13 <= v -> header_ok b -> zlen (bd_fileName b) <= 190 ->
  bd_dataSize b = zlen data ->
  (bd_alloc b = TO_BE_DELETED -> bd_fileSize b = 0 /\ bd_dataSize b = 0) -> 256 <= zlen tail ->
  exists slack', 0 <= slack' <= 11 /\
  spec_cmd p (md slack) ((FILE_CMD :: st :: le16 (4 + zlen (header_bytes v b)) ++ header_bytes v b) ++ data ++
     (if sum then FOOTER_CMD :: encodeVarI64_str (to_i32 (crc32c data 0)) else []) ++ tail)
    = Some (SNext (blk_events st b data) (md slack') tail).
Proof.
  intros Hv Hb Hl Hds Hdel Ht. pose proof (header_short v b Hb Hl) as Lh.
  set (hb := header_bytes v b) in *. pose proof (zlen_nonneg hb). pose proof (zlen_nonneg data).
  set (ft := if sum then FOOTER_CMD :: encodeVarI64_str (to_i32 (crc32c data 0)) else []) in *.
  pose proof (zlen_nonneg ft). exists (if sum then 11 else 0). split; [destruct sum; lia|].
  unfold spec_cmd. set (h := 4 + zlen hb) in *.
  set (hd4 := FILE_CMD :: st :: le16 h).
  change (FILE_CMD :: st :: le16 h ++ hb) with (hd4 ++ hb).
  assert (L4 : zlen hd4 = 4) by reflexivity.
  rewrite <- (app_assoc hd4 hb).
  assert (Lz : zlen (hd4 ++ hb ++ data ++ ft ++ tail) = h + zlen data + zlen ft + zlen tail)
    by (rewrite !zlen_app; lia).
  destruct (Z.ltb_spec (zlen (hd4 ++ hb ++ data ++ ft ++ tail)) 256); [lia|].
  set (u := hd4 ++ hb ++ data ++ ft ++ tail) in *.
  assert (Hu : exists u0, u = FILE_CMD :: u0) by (eexists; reflexivity). destruct Hu as (u0 & Hu). rewrite Hu at 1.
  change (FILE_CMD =? DONE_CMD) with false. change (FILE_CMD =? FILE_CMD) with true. cbv iota.
  unfold spec_file.
  change (rd u 2) with (Some (h mod 256)). change (rd u 3) with (Some ((h / 256) mod 256)). cbv iota.
  rewrite int16_le16 by lia.
  destruct (Z.leb_spec h 0); [lia|]. destruct (Z.ltb_spec 256 h); [lia|]. cbv zeta.
  assert (Es : slice u 4 (h - 4) = hb).
  { unfold u. rewrite <- L4 at 1. rewrite slice_mid by (rewrite ?zlen_app; lia).
    replace (h - 4 - zlen hb) with 0 by lia. unfold slice. cbn [Z.to_nat firstn skipn]. apply app_nil_r. }
  rewrite Es. cbn [md ss_version].
  pose proof (Decodes_Header v b Hb []) as Dh. rewrite app_nil_r in Dh. fold hb in Dh. rewrite Dh.
  destruct (Z.ltb_spec h 4); [lia|].
  assert (Hvd : bd_alloc (header_visible v b) = bd_alloc b).
  { unfold header_visible. cbn [bd_alloc]. destruct (Z.leb_spec 13 v); [reflexivity|lia]. }
  rewrite Hvd. cbn [header_visible bd_fileSize bd_dataSize].
  destruct (Z.eqb_spec (bd_alloc b) TO_BE_DELETED) as [Ed|Ed].
  1: destruct (Hdel Ed) as (-> & Hd0); rewrite Hd0; cbn [Z.eqb negb orb andb].
  2: cbn [andb].
  all: f_equal.
  all: assert (Eu : skipn (Z.to_nat h) u = data ++ ft ++ tail)
    by (unfold u; rewrite app_assoc; replace h with (zlen (hd4 ++ hb)) by (rewrite zlen_app; lia);
        apply skipn_zlen_app).
  all: rewrite Eu; unfold spec_block; cbn [header_visible bd_dataSize]; rewrite Hds.
  all: assert (Lt : zlen (data ++ ft ++ tail) = zlen data + zlen ft + zlen tail) by (rewrite !zlen_app; lia).
  all: destruct (Z.leb_spec (zlen data) (zlen (data ++ ft ++ tail))); [|lia].
  all: rewrite firstn_zlen_app, skipn_zlen_app; unfold blk_events; cbn [md ss_checksum ss_version].
  all: unfold md, ft in *; destruct sum; [|reflexivity].
  all: unfold spec_footer.
  all: set (e := encodeVarI64_str (to_i32 (crc32c data 0))) in *.
  all: pose proof (footer_len _ (to_i32_range (crc32c data 0))) as Le; fold e in Le.
  all: assert (Lf : zlen ((FOOTER_CMD :: e) ++ tail) = 1 + zlen e + zlen tail) by (rewrite zlen_app, zlen_cons; lia).
  all: destruct (Z.ltb_spec (zlen ((FOOTER_CMD :: e) ++ tail)) 256); [lia|].
  all: change ((FOOTER_CMD :: e) ++ tail) with (FOOTER_CMD :: e ++ tail) at 1; cbv iota.
  all: change (FOOTER_CMD =? FOOTER_CMD) with true; cbv iota.
  all: change ((FOOTER_CMD :: e) ++ tail) with ([FOOTER_CMD] ++ e ++ tail).
  all: replace (slice ([FOOTER_CMD] ++ e ++ tail) 1 10) with (e ++ slice tail 0 (10 - zlen e))
    by (change 1 with (zlen [FOOTER_CMD]) at 1; rewrite slice_mid by lia; reflexivity).
  all: unfold decodeFooter, e at 1; rewrite (Decodes_Int32 _ (to_i32_range (crc32c data 0))); rewrite Z.eqb_refl.
  all: assert (Lr : zlen (slice tail 0 (10 - zlen e)) = 10 - zlen e) by (apply zlen_slice; lia).
  all: rewrite Lr; replace (11 - (10 - zlen e)) with (zlen ([FOOTER_CMD] ++ e))
    by (rewrite zlen_app; change (zlen [FOOTER_CMD]) with 1; lia).
  all: rewrite app_assoc, skipn_zlen_app; reflexivity.
Qed.
End Stream.

Lemma encS_bytes s : bytes_ok s -> bytes_ok (encodeString_str s).
Proof.
  intros H. unfold encodeString_str. apply bytes_ok_app. split; [|exact H].
  apply encodeVarU64_str_bytes, zlen_nonneg.
Qed.
Lemma enc63_bytes n : in_nat63 n -> bytes_ok (encodeVarU64_str n).
Proof. intros H. apply encodeVarU64_str_bytes. unfold in_nat63 in H. lia. Qed.
Lemma header_bytes_ok v b : header_ok b -> bytes_ok (bd_fileName b) -> bytes_ok (header_bytes v b).
Proof.
  intros (Hn & Hs & Hf & Ho & Hd & Ha & Hp) Hb. unfold header_bytes.
  rewrite !bytes_ok_app. repeat split; auto using encS_bytes, enc63_bytes.
  destruct (13 <=? v); [|constructor]. rewrite bytes_ok_app. split.
  - constructor; [unfold is_byte; lia|constructor].
  - destruct (_ || _); [apply enc63_bytes, Hp|constructor].
Qed.
Lemma le16_bytes n : bytes_ok (le16 n).
Proof.
  unfold le16, bytes_ok. constructor; [|constructor; [|constructor]]; apply Z.mod_pos_bound; lia.
Qed.
Lemma settings_bytes_ok v s : in_nat31 v -> settings_ok s -> bytes_ok (st_transferId s) -> bytes_ok (settings_bytes v s).
Proof.
  intros Hv (Hr & Hw & Hi) Hb. unfold settings_bytes, settings_body_bytes.
  assert (in_nat63 v) by nat63. assert (in_nat63 (st_readTimeoutMillis s)) by nat63.
  assert (in_nat63 (st_writeTimeoutMillis s)) by nat63.
  rewrite !bytes_ok_app. repeat split; auto using encS_bytes, enc63_bytes.
  destruct (12 <=? v); [|constructor]. constructor; [|constructor].
  unfold settings_flags, is_byte.
  destruct (st_enableChecksum s), (st_sendFileChunks s), (st_blockModeDisabled s), (st_enableHeartBeat s); cbn; lia.
Qed.

Lemma blocks_mean p v sum st n b buf l : in_nat31 v -> 16 <= v -> is_byte st -> in_nat63 n -> in_nat63 b ->
  256 <= zlen buf -> bytes_ok buf -> Forall sblock_ok l ->
  exists u, sent_blocks v sum l (sent_done v st n b buf) = Some u /\ 256 <= zlen u /\ bytes_ok u /\
    forall slack, 0 <= slack <= 300 ->
    spec_stream p (md v sum slack) u (flat_map (block_events v sum (rp_tags p)) l ++ [RDone st n b]) GoWait.
Proof.
  intros Hv H16 Hst Hn Hb HB Hbuf. induction l as [|x l IH]; intros Hl.
  - destruct (sent_done_ok v st n b buf Hn Hb HB) as (pad & E & L & Hp).
    cbn [sent_blocks flat_map app]. eexists. split; [exact E|].
    split; [rewrite !zlen_cons; lia|]. split.
    + constructor; [unfold is_byte, DONE_CMD; lia|]. constructor; [exact Hst|]. apply bytes_ok_app. split; [|auto].
      unfold done_bytes. apply bytes_ok_app. split; [apply enc63_bytes, Hn|].
      destruct (16 <=? v); [apply enc63_bytes, Hb|constructor].
    + intros slack Hs. apply ss_stop. apply done_step; assumption.
  - inversion Hl as [|? ? Hx Hl']; subst. destruct Hx as (X1 & X2 & X3 & X4 & X5 & X6 & X7 & X8).
    destruct (IH Hl') as (u & Eu & Lu & Bu & Su). cbn [sent_blocks flat_map]. rewrite Eu.
    set (ub := (FILE_CMD :: sk_status x :: le16 (4 + zlen (header_bytes v (sk_block x))) ++ header_bytes v (sk_block x)) ++ sk_data x ++
         (if sum then FOOTER_CMD :: encodeVarI64_str (to_i32 (crc32c (sk_data x) 0)) else [])).
    assert (Bb : bytes_ok ub).
    { unfold ub. rewrite !bytes_ok_app. split; [|split; [exact X5|]].
      - constructor; [unfold is_byte, FILE_CMD; lia|]. constructor; [exact X4|].
        apply bytes_ok_app. split; [apply le16_bytes|apply header_bytes_ok; assumption].
      - destruct sum; [|constructor]. constructor; [unfold is_byte, FOOTER_CMD; lia|].
        unfold encodeVarI64_str. apply encodeVarU64_str_bytes.
        pose proof (encodeZigZag_range _ (i32_i64 _ (to_i32_range (crc32c (sk_data x) 0)))) as R. unfold in_u64 in R. lia. }
    assert (Sb : forall slack, spec_stream p (md v sum slack) (ub ++ u)
       (blk_events p v sum (sk_status x) (sk_block x) (sk_data x) ++
        flat_map (block_events v sum (rp_tags p)) l ++ [RDone st n b]) GoWait).
    { intros slack.
      destruct (block_step p v sum slack (sk_status x) (sk_block x) (sk_data x) u ltac:(lia) X1 X2 X6 X7 Lu)
        as (s' & Hs' & E).
      eapply ss_next; [|apply (Su s'); lia]. unfold ub. rewrite <- !app_assoc. exact E. }
    unfold sent_block, block_events at 1. rewrite sent_header_ok by assumption. rewrite sent_footer_ok.
    assert (Ej : ojoin (Some (FILE_CMD :: sk_status x :: le16 (4 + zlen (header_bytes v (sk_block x))) ++ header_bytes v (sk_block x)))
       (ojoin (Some (sk_data x)) (if sum then Some (FOOTER_CMD :: encodeVarI64_str (to_i32 (crc32c (sk_data x) 0))) else Some []))
       = Some ub) by (unfold ub; destruct sum; reflexivity).
    rewrite Ej. assert (Lub : zlen (ub ++ u) = zlen ub + zlen u) by apply zlen_app. pose proof (zlen_nonneg ub).
    destruct (sk_size x) as [k|].
    + rewrite (sent_size_ok k X8). cbn [ojoin].
      exists (((SIZE_CMD :: encodeVarU64_str k) ++ ub) ++ u). split; [reflexivity|].
      split; [rewrite !zlen_app; pose proof (zlen_nonneg (SIZE_CMD :: encodeVarU64_str k)); lia|].
      split; [rewrite !bytes_ok_app; repeat split; auto; constructor; [unfold is_byte, SIZE_CMD; lia|apply enc63_bytes, X8]|].
      intros slack Hs. rewrite <- app_assoc.
      destruct (size_step p v sum k slack (ub ++ u) X8 ltac:(lia) ltac:(lia)) as (s' & _ & E).
      match goal with |- spec_stream _ _ _ ?e _ =>
        replace e with ([RSize k] ++ blk_events p v sum (sk_status x) (sk_block x) (sk_data x) ++
          flat_map (block_events v sum (rp_tags p)) l ++ [RDone st n b])
          by (unfold blk_events; rewrite <- !app_assoc; reflexivity) end.
      eapply ss_next; [exact E|]. apply Sb.
    + cbn [ojoin app]. exists (ub ++ u). split; [reflexivity|]. split; [lia|].
      split; [apply bytes_ok_app; split; auto|]. intros slack Hs. rewrite <- app_assoc. apply Sb.
Qed.

(** The whole connection. *)
Lemma stream_means p v sum0 s st n b buf l : in_nat31 v -> 16 <= v -> settings_ok s ->
  zlen (st_transferId s) <= 200 -> bytes_ok (st_transferId s) -> st_transferId s = rp_id p ->
  st_sendFileChunks s = false -> is_byte st -> in_nat63 n -> in_nat63 b ->
  256 <= zlen buf -> bytes_ok buf -> Forall sblock_ok l ->
  exists u, sent_stream v s l st n b buf = Some u /\ bytes_ok u /\
    spec_stream p {| ss_version := v; ss_checksum := sum0; ss_slack := 0 |} u
      (stream_events v s (rp_tags p) l st n b) GoWait.
Proof.
  intros Hv H16 Hs Hl Hib Hid Hc Hst Hn Hb HB Hbuf HF.
  destruct (blocks_mean p v (st_enableChecksum s) st n b buf l Hv H16 Hst Hn Hb HB Hbuf HF) as (u & Eu & Lu & Bu & Su).
  unfold sent_stream. rewrite Eu. destruct (sent_settings_ok v s Hv Hs Hl) as [-> _]. cbn [ojoin].
  eexists. split; [reflexivity|]. split.
  - apply bytes_ok_app. split; [|exact Bu]. constructor; [unfold is_byte, SETTINGS_CMD; lia|].
    apply settings_bytes_ok; assumption.
  - destruct (settings_step p v (st_enableChecksum s) s u 0 sum0 Hv ltac:(lia) Hs Hl Hid Hc eq_refl ltac:(lia) Lu)
      as (s' & Hs' & E).
    unfold stream_events. change (RSettings s :: ?a) with ([RSettings s] ++ a).
    eapply ss_next; [exact E|]. apply Su. lia.
Qed.

Lemma sender_stream_received p v sum0 s st n b sbuf l : in_nat31 v -> 16 <= v -> settings_ok s ->
  zlen (st_transferId s) <= 200 -> bytes_ok (st_transferId s) -> st_transferId s = rp_id p ->
  st_sendFileChunks s = false -> is_byte st -> in_nat63 n -> in_nat63 b ->
  256 <= zlen sbuf -> bytes_ok sbuf -> Forall sblock_ok l ->
  exists u, sent_stream v s l st n b sbuf = Some u /\
    forall buf a, kMaxHeader <= zlen buf -> in_bytes a = u ->
    exists c, run_conn (length u) p [] (fresh_conn buf a v sum0) = Ret (c, GoWait) /\
      seen (negb (rp_tags p)) (rc_ev c) = seen (negb (rp_tags p)) (stream_events v s (rp_tags p) l st n b).
Proof.
  intros H1 H2 H3 H4 H5 H6 H7 H8 H9 H10 H11 H12 H13.
  destruct (stream_means p v sum0 s st n b sbuf l H1 H2 H3 H4 H5 H6 H7 H8 H9 H10 H11 H12 H13) as (u & E & Hu & Hs).
  exists u. split; [exact E|]. intros buf a HB Ha.
  destruct (run_fresh _ _ _ _ _ _ Hs Hu buf a HB Ha) as (c & Ec & _ & Sc). exists c. split; assumption.
Qed.
