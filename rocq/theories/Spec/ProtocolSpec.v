(** Which messages a peer may produce and what the other peer sees of them at a
    given protocol version. *)
From Verif Require Export Spec.CodecSpec Model.ProtocolCodec.

(** A header the sender may produce. *)
Definition header_ok (b : block_details) : Prop :=
  zlen (bd_fileName b) < 2 ^ 63 /\ in_nat63 (bd_seqId b) /\ in_nat63 (bd_fileSize b) /\
  in_nat63 (bd_offset b) /\ in_nat63 (bd_dataSize b) /\
  0 <= bd_alloc b <= 4 /\ in_nat63 (bd_prevSeqId b).

(** What a receiver at version [v] sees: the status needs version 13, the
    previous sequence id is only carried for files of a different size. *)
Definition header_visible (v : Z) (b : block_details) : block_details :=
  let carried := 13 <=? v in
  let sized := (bd_alloc b =? 2) || (bd_alloc b =? 3) in
  {| bd_fileName := bd_fileName b; bd_seqId := bd_seqId b; bd_fileSize := bd_fileSize b;
     bd_offset := bd_offset b; bd_dataSize := bd_dataSize b;
     bd_alloc := if carried then bd_alloc b else 0;
     bd_prevSeqId := if carried && sized then bd_prevSeqId b else 0 |}.

(** ---- checkpoints ---- *)
Definition checkpoint_ok (c : checkpoint) : Prop :=
  in_nat31 (ck_port c) /\ in_nat63 (ck_numBlocks c) /\ in_nat63 (ck_lastBlockSeqId c) /\
  in_nat63 (ck_lastBlockOffset c) /\ in_nat63 (ck_lastBlockReceivedBytes c).

(** What survives at version [v]. *)
Definition checkpoint_visible (v : Z) (c : checkpoint) : checkpoint :=
  {| ck_port := ck_port c; ck_numBlocks := ck_numBlocks c;
     ck_lastBlockSeqId := if 21 <=? v then ck_lastBlockSeqId c else 0;
     ck_lastBlockOffset := if 21 <=? v then ck_lastBlockOffset c else 0;
     ck_lastBlockReceivedBytes := if 16 <=? v then ck_lastBlockReceivedBytes c else 0;
     ck_hasSeqId := 21 <=? v |}.

(** ---- settings ---- *)
Definition settings_ok (s : settings) : Prop :=
  in_nat31 (st_readTimeoutMillis s) /\ in_nat31 (st_writeTimeoutMillis s) /\
  zlen (st_transferId s) < 2 ^ 63.

Definition settings_visible (v : Z) (s : settings) : settings :=
  let c := 12 <=? v in
  {| st_readTimeoutMillis := st_readTimeoutMillis s;
     st_writeTimeoutMillis := st_writeTimeoutMillis s;
     st_transferId := st_transferId s;
     st_enableChecksum := c && st_enableChecksum s;
     st_sendFileChunks := c && st_sendFileChunks s;
     st_blockModeDisabled := c && st_blockModeDisabled s;
     st_enableHeartBeat := c && st_enableHeartBeat s |}.

(** ---- file chunks info ---- *)
Definition interval_ok (c : interval) : Prop := in_nat63 (iv_start c) /\ in_nat63 (iv_end c).

Definition file_chunks_ok (f : file_chunks) : Prop :=
  in_nat63 (fc_seqId f) /\ zlen (fc_fileName f) < 2 ^ 63 /\ in_nat63 (fc_fileSize f) /\
  zlen (fc_chunks f) < 2 ^ 63 /\ Forall interval_ok (fc_chunks f).
