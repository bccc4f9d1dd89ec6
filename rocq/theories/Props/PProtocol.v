(** Properties C05, C06, C08: wire messages and version negotiation. *)
From Verif Require Import Proofs.ProtocolCodecFacts.

(** C05: the header a sender encoded is what the receiver decodes, up to the
    fields the version does not carry ([header_visible]), and the decoder stops
    exactly where the encoder stopped. *)
Theorem C05_header_roundtrip : forall v b buf max off buf' off',
  header_ok b -> 0 <= off -> max <= zlen buf ->
  encodeHeader v b buf max off = Ret {| er_ok := true; er_buf := buf'; er_pos := off' |} ->
  forall max', off' <= max' <= zlen buf' ->
  decode_at (decodeHeader v) buf' off max' = Ret (Some (header_visible v b, off')).
Proof. exact header_roundtrip. Qed.
Print Assumptions C05_header_roundtrip.

Example C05_header_roundtrip_example :
  let b := {| bd_fileName := [97; 47; 98]; bd_seqId := 7; bd_fileSize := 1000;
              bd_offset := 300; bd_dataSize := 200; bd_alloc := 3; bd_prevSeqId := 5 |} in
  header_ok b /\
  encodeHeader 13 b (repeat 0 20) 20 1 = Ret {| er_ok := true;
    er_buf := [0; 3; 97; 47; 98; 7; 200; 1; 172; 2; 232; 7; 3; 5; 0; 0; 0; 0; 0; 0]; er_pos := 14 |} /\
  header_visible 13 b = b /\ bd_alloc (header_visible 12 b) = 0.
Proof. vm_compute; intuition congruence. Qed.

(** C05: encoding never crashes or leaves the region, and for names up to
    PATH_MAX it succeeds whenever the reserved room is there. *)
Theorem C05_header_fits : forall v b buf max off,
  header_ok b -> 0 <= off -> 0 <= max <= zlen buf ->
  exists r, encodeHeader v b buf max off = Ret r /\
    same_outside buf (er_buf r) off max /\
    (zlen (bd_fileName b) <= PATH_MAX -> off + (kMaxHeader - 1) <= max ->
     er_ok r = true /\ er_pos r - off <= kMaxHeader - 1).
Proof. exact header_fits. Qed.
Print Assumptions C05_header_fits.

(** C05: on arbitrary bytes the header decoder returns, with in-range fields. *)
Theorem C05_header_decoder_safe : forall v,
  SafeDec (decodeHeader v) (fun b =>
    bytes_ok (bd_fileName b) /\ in_nat63 (bd_seqId b) /\ in_nat63 (bd_dataSize b) /\
    in_nat63 (bd_offset b) /\ in_nat63 (bd_fileSize b) /\ 0 <= bd_alloc b < 8 /\
    in_nat63 (bd_prevSeqId b)).
Proof. exact SafeDec_Header. Qed.
Print Assumptions C05_header_decoder_safe.

Example C05_header_decoder_safe_example :
  decodeHeader 13 [1; 97; 0; 0; 0; 0; 255; 9] =
    Ret (Some ({| bd_fileName := [97]; bd_seqId := 0; bd_fileSize := 0; bd_offset := 0;
                  bd_dataSize := 0; bd_alloc := 7; bd_prevSeqId := 0 |}, [9])) /\
  decodeHeader 13 [1; 97; 0; 0; 0; 0] = Ret None.
Proof. vm_compute; auto. Qed.

(** C06: settings. *)
Theorem C06_settings_roundtrip : forall v s buf max off buf' off',
  in_nat31 v -> settings_ok s -> 0 <= off -> max <= zlen buf ->
  encodeSettings v s buf max off = Ret {| er_ok := true; er_buf := buf'; er_pos := off' |} ->
  forall max', off' <= max' <= zlen buf' ->
  exists off1,
    decode_at decodeVersion buf' off max' = Ret (Some (v, off1)) /\
    decodeSettings v buf' off1 max' = Ret (Some (settings_visible v s, off')).
Proof. exact settings_roundtrip. Qed.
Print Assumptions C06_settings_roundtrip.

Theorem C06_settings_fit : forall v s buf max off,
  in_nat31 v -> settings_ok s -> zlen (st_transferId s) <= kMaxTransferIdLength ->
  0 <= off -> max <= zlen buf -> off + (kMaxSettings - 1) <= max ->
  exists buf' off', encodeSettings v s buf max off
    = Ret {| er_ok := true; er_buf := buf'; er_pos := off' |} /\
    off' <= off + (kMaxSettings - 1).
Proof. exact settings_fits. Qed.
Print Assumptions C06_settings_fit.

Example C06_settings_example :
  let s := {| st_readTimeoutMillis := 5000; st_writeTimeoutMillis := 300; st_transferId := [120];
              st_enableChecksum := true; st_sendFileChunks := false;
              st_blockModeDisabled := true; st_enableHeartBeat := true |} in
  settings_ok s /\
  encodeSettings 30 s (repeat 0 10) 10 1 = Ret {| er_ok := true;
    er_buf := [0; 30; 136; 39; 172; 2; 1; 120; 13; 0]; er_pos := 9 |} /\
  decodeSettings 30 [0; 30; 136; 39; 172; 2; 1; 120; 13; 0] 2 10 = Ret (Some (s, 9)).
Proof. vm_compute; intuition congruence. Qed.

(** C06: checkpoints, any number of them. *)
Theorem C06_checkpoints_roundtrip : forall v cs buf max off buf' off',
  Forall checkpoint_ok cs -> zlen cs < 2 ^ 63 -> 0 <= off -> max <= zlen buf ->
  encodeCheckpoints v cs buf max off = Ret {| er_ok := true; er_buf := buf'; er_pos := off' |} ->
  forall max', off' <= max' <= zlen buf' ->
  decode_at (decodeCheckpoints v) buf' off max'
  = Ret (Some (map (checkpoint_visible v) cs, off')).
Proof. exact checkpoints_roundtrip. Qed.
Print Assumptions C06_checkpoints_roundtrip.

Example C06_checkpoints_example :
  let c := {| ck_port := 22356; ck_numBlocks := 3; ck_lastBlockSeqId := 9; ck_lastBlockOffset := 64;
              ck_lastBlockReceivedBytes := 5; ck_hasSeqId := true |} in
  checkpoint_ok c /\ checkpoint_visible 21 c = c /\
  encodeCheckpoints 21 [c] (repeat 0 10) 10 0 = Ret {| er_ok := true;
    er_buf := [1; 212; 174; 1; 3; 5; 9; 64; 0; 0]; er_pos := 8 |}.
Proof. vm_compute; intuition congruence. Qed.

(** C06: one local checkpoint fits the length reserved for it, at any version. *)
Theorem C06_local_checkpoint_fits : forall v c buf max off,
  checkpoint_ok c -> 0 <= off -> 0 <= max <= zlen buf ->
  off + getMaxLocalCheckpointLength v <= max ->
  exists buf' off', encodeCheckpoints v [c] buf max off
    = Ret {| er_ok := true; er_buf := buf'; er_pos := off' |} /\
    off' <= off + getMaxLocalCheckpointLength v.
Proof. exact local_checkpoint_fits. Qed.
Print Assumptions C06_local_checkpoint_fits.

(** C06: the checkpoints of a peer older than 1.27, which writes a ten byte -1
    as sequence id, are still understood. *)
Theorem C06_old_invalid_seq_id_understood : forall v port numBlocks recv off,
  21 <= v < 27 -> in_nat31 port -> in_nat63 numBlocks -> in_nat63 recv -> in_nat63 off ->
  forall rest,
  decodeCheckpoints v
    (1 :: encodeVarU64_str port ++ encodeVarU64_str numBlocks ++ encodeVarU64_str recv
       ++ [255; 255; 255; 255; 255; 255; 255; 255; 255; 1] ++ encodeVarU64_str off ++ rest)
  = Ret (Some ([{| ck_port := port; ck_numBlocks := numBlocks; ck_lastBlockSeqId := -1;
                   ck_lastBlockOffset := off; ck_lastBlockReceivedBytes := recv;
                   ck_hasSeqId := true |}], rest)).
Proof. exact old_checkpoint_decodes. Qed.
Print Assumptions C06_old_invalid_seq_id_understood.

(** C06: on arbitrary bytes with an arbitrary announced count the checkpoint
    decoder returns. *)
Theorem C06_checkpoints_decoder_safe : forall v,
  SafeDec (decodeCheckpoints v) (fun cs => Forall (fun c =>
    in_nat31 (ck_port c) /\ in_nat63 (ck_numBlocks c) /\ in_i64 (ck_lastBlockSeqId c) /\
    in_nat63 (ck_lastBlockOffset c) /\ in_nat63 (ck_lastBlockReceivedBytes c)) cs).
Proof. exact SafeDec_Checkpoints. Qed.
Print Assumptions C06_checkpoints_decoder_safe.

Example C06_checkpoints_decoder_safe_example :
  decodeCheckpoints 30 [255; 255; 255; 255; 255; 255; 255; 255; 255; 1; 1; 1; 1; 1] = Ret None.
Proof. vm_compute; reflexivity. Qed.

(** C06: done, size and footer. [b0] is what the caller's byte count held
    before (kept by versions that do not carry it). *)
Theorem C06_done_roundtrip : forall v n b b0 buf max off buf' off',
  in_nat63 n -> in_nat63 b -> 0 <= off -> max <= zlen buf ->
  encodeDone v n b buf max off = Ret {| er_ok := true; er_buf := buf'; er_pos := off' |} ->
  forall max', off' <= max' <= zlen buf' ->
  decode_at (decodeDone v b0) buf' off max' = Ret (Some ((n, if 16 <=? v then b else b0), off')).
Proof. exact done_roundtrip. Qed.
Print Assumptions C06_done_roundtrip.

Theorem C06_done_fits : forall v n b buf max off,
  in_nat63 n -> in_nat63 b -> 0 <= off -> max <= zlen buf -> off + (kMaxDone - 2) <= max ->
  exists buf' off', encodeDone v n b buf max off
    = Ret {| er_ok := true; er_buf := buf'; er_pos := off' |} /\ off' <= off + (kMaxDone - 2).
Proof. exact done_fits. Qed.
Print Assumptions C06_done_fits.

Theorem C06_size_roundtrip : forall n buf max off buf' off',
  in_nat63 n -> 0 <= off -> max <= zlen buf ->
  encodeSize n buf max off = Ret {| er_ok := true; er_buf := buf'; er_pos := off' |} ->
  forall max', off' <= max' <= zlen buf' ->
  decode_at decodeSize buf' off max' = Ret (Some (n, off')).
Proof. exact size_roundtrip. Qed.
Print Assumptions C06_size_roundtrip.

Theorem C06_footer_roundtrip : forall n buf max off buf' off',
  in_i32 n -> 0 <= off -> max <= zlen buf ->
  encodeFooter n buf max off = Ret {| er_ok := true; er_buf := buf'; er_pos := off' |} ->
  forall max', off' <= max' <= zlen buf' ->
  decode_at decodeFooter buf' off max' = Ret (Some (n, off')).
Proof. exact footer_roundtrip. Qed.
Print Assumptions C06_footer_roundtrip.

Example C06_done_size_footer_example :
  encodeDone 16 300 5 [0; 0; 0; 0] 4 1 = Ret {| er_ok := true; er_buf := [0; 172; 2; 5]; er_pos := 4 |} /\
  encodeSize 300 [0; 0; 0; 0] 4 1 = Ret {| er_ok := true; er_buf := [0; 172; 2; 0]; er_pos := 3 |} /\
  encodeFooter (-3) [0; 0] 2 1 = Ret {| er_ok := true; er_buf := [0; 5]; er_pos := 2 |} /\
  decode_at decodeFooter [0; 5] 1 2 = Ret (Some (-3, 2)).
Proof. vm_compute; auto. Qed.

(** C06: abort, chunks and encryption settings messages use exactly the length
    reserved for them. *)
Theorem C06_abort_roundtrip : forall v e c buf max off,
  in_nat31 v -> is_byte e -> in_nat63 c -> 0 <= off -> max <= zlen buf ->
  off + kAbortLength <= max ->
  exists buf', encodeAbort v e c buf max off
      = Ret {| er_ok := true; er_buf := buf'; er_pos := off + kAbortLength |} /\
    forall max', off + kAbortLength <= max' <= zlen buf' ->
      decodeAbort buf' off max' = Ret (Some (v, e, c, off + kAbortLength)).
Proof. exact abort_roundtrip. Qed.
Print Assumptions C06_abort_roundtrip.

Theorem C06_chunks_cmd_roundtrip : forall a b buf max off,
  in_nat63 a -> in_nat63 b -> 0 <= off -> max <= zlen buf -> off + kChunksCmdLen <= max ->
  exists buf', encodeChunksCmd a b buf max off
      = Ret {| er_ok := true; er_buf := buf'; er_pos := off + kChunksCmdLen |} /\
    forall max', off + kChunksCmdLen <= max' <= zlen buf' ->
      decode_at decodeChunksCmd buf' off max' = Ret (Some ((a, b), off + kChunksCmdLen)).
Proof. exact chunkscmd_roundtrip. Qed.
Print Assumptions C06_chunks_cmd_roundtrip.

Theorem C06_encryption_settings_roundtrip : forall ty iv tag buf max off,
  0 <= ty <= 3 -> zlen iv = kAESBlockSize -> in_nat31 tag ->
  0 <= off -> max <= zlen buf -> off + (kEncryptionCmdLen - 1) <= max ->
  exists buf', encodeEncryptionSettings ty iv tag buf max off
      = Ret {| er_ok := true; er_buf := buf'; er_pos := off + (kEncryptionCmdLen - 1) |} /\
    forall max', off + (kEncryptionCmdLen - 1) <= max' <= zlen buf' ->
      decode_at decodeEncryptionSettings buf' off max'
      = Ret (Some ((ty, iv, tag), off + (kEncryptionCmdLen - 1))).
Proof. exact enc_settings_roundtrip. Qed.
Print Assumptions C06_encryption_settings_roundtrip.

Example C06_fixed_messages_example :
  encodeAbort 30 2 7 (repeat 0 13) 13 0 = Ret {| er_ok := true;
     er_buf := [30; 0; 0; 0; 2; 7; 0; 0; 0; 0; 0; 0; 0]; er_pos := 13 |} /\
  decodeAbort [30; 0; 0; 0; 2; 7; 0; 0; 0; 0; 0; 0; 0] 0 13 = Ret (Some (30, 2, 7, 13)) /\
  encodeChunksCmd 258 3 (repeat 0 16) 16 0 = Ret {| er_ok := true;
     er_buf := [2; 1; 0; 0; 0; 0; 0; 0; 3; 0; 0; 0; 0; 0; 0; 0]; er_pos := 16 |} /\
  (exists b, encodeEncryptionSettings 2 (repeat 9 16) 4096 (repeat 0 22) 22 0
             = Ret {| er_ok := true; er_buf := b; er_pos := 22 |}).
Proof. vm_compute; repeat split; eexists; reflexivity. Qed.

(** C08: both peers compute the same version, supported by both; there is no
    agreement exactly when the peer is older than the oldest supported version
    (10, WDT 1.0 wire compatibility). *)
Theorem C08_negotiation : forall a b, 10 <= b ->
  (negotiateProtocol a b = 0 <-> a < 10) /\
  (10 <= a ->
     negotiateProtocol a b = negotiateProtocol b a /\
     10 <= negotiateProtocol a b /\ negotiateProtocol a b <= a /\ negotiateProtocol a b <= b /\
     (negotiateProtocol a b = a \/ negotiateProtocol a b = b)).
Proof.
  exact (fun a b Hb => conj (negotiate_none a b Hb) (fun Ha => proj2 (negotiate_spec a b) Ha Hb)).
Qed.
Print Assumptions C08_negotiation.

(** C08: negotiating again with the agreed version changes nothing. *)
Theorem C08_negotiation_stable : forall a b, 10 <= a -> 10 <= b ->
  negotiateProtocol (negotiateProtocol a b) b = negotiateProtocol a b /\
  negotiateProtocol (negotiateProtocol a b) a = negotiateProtocol a b.
Proof. exact negotiate_stable. Qed.
Print Assumptions C08_negotiation_stable.

(** C08 (finding): only the requested version is checked; a peer that is itself
    configured below version 10 computes a non-zero version while the other
    side computes no agreement. *)
Theorem C08_symmetry_below_minimum_refuted :
  exists a b, negotiateProtocol a b <> negotiateProtocol b a.
Proof. exact negotiate_asym. Qed.
Print Assumptions C08_symmetry_below_minimum_refuted.

Example C08_example : negotiateProtocol 29 33 = 29 /\ negotiateProtocol 33 29 = 29 /\
  negotiateProtocol 9 33 = 0 /\ negotiateProtocol 33 9 = 9.
Proof. vm_compute; auto. Qed.
