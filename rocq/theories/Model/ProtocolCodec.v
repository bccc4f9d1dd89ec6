(** Wire messages: Protocol.h and Protocol.cpp.

    Encoders are [buf max off -> outcome encres]; decoders work on the bytes
    from the current offset ([decode_at] adds the makeByteRange/offset frame). *)
From Verif Require Export Model.Varint.

(** Feature versions, Protocol.cpp:20-33. *)
Definition CHECKSUM_VERSION := 12.
Definition DOWNLOAD_RESUMPTION_VERSION := 13.
Definition SETTINGS_FLAG_VERSION := 12.
Definition HEADER_FLAG_AND_PREV_SEQ_ID_VERSION := 13.
Definition CHECKPOINT_OFFSET_VERSION := 16.
Definition CHECKPOINT_SEQ_ID_VERSION := 21.
Definition ENCRYPTION_V1_VERSION := 23.
Definition INCREMENTAL_TAG_VERIFICATION_VERSION := 25.
Definition DELETE_CMD_VERSION := 26.
Definition VARINT_CHANGE := 27.
Definition HEART_BEAT_VERSION := 29.
Definition PERIODIC_ENCRYPTION_IV_CHANGE_VERSION := 30.

(** Length constants, Protocol.h:301-330 (PATH_MAX is 4096 on Linux,
    kAESBlockSize is 16). *)
Definition PATH_MAX := 4096.
Definition kMaxTransferIdLength := 1024.
Definition kMaxHeader := 1 + 2 + PATH_MAX + 4 * 10 + 1 + 10.
Definition kMinBufLength := 256.
Definition kMaxDone := 2 + 2 * 10.
Definition kMaxSize := 1 + 10.
Definition kMaxSettings := 1 + 3 * 10 + kMaxTransferIdLength + 1.
Definition kMaxFooter := 1 + 10.
Definition kChunksCmdLen := 2 * 8.
Definition kMaxChunkEncodeLen := 20.
Definition kAbortLength := 4 + 1 + 8.
Definition kMaxVersion := 10.
Definition kAESBlockSize := 16.
Definition kEncryptionCmdLen := 1 + 1 + 1 + kAESBlockSize + 4.

(** Protocol::negotiateProtocol, Protocol.cpp:44-51. *)
Definition negotiateProtocol (requested cur : Z) : Z :=
  if requested <? 10 then 0 else Z.min cur requested.

(** Protocol::getMaxLocalCheckpointLength, Protocol.cpp:121-137. *)
Definition getMaxLocalCheckpointLength (v : Z) : Z :=
  10 + 2 * 10
  + (if CHECKPOINT_OFFSET_VERSION <=? v then 10 else 0)
  + (if CHECKPOINT_SEQ_ID_VERSION <=? v then 2 * 10 else 0).

(** enum FileAllocationStatus, Protocol.h:196-202, as its integer value. *)
Definition NOT_EXISTS := 0.
Definition EXISTS_CORRECT_SIZE := 1.
Definition EXISTS_TOO_LARGE := 2.
Definition EXISTS_TOO_SMALL := 3.
Definition TO_BE_DELETED := 4.

(** struct BlockDetails, Protocol.h:205-220. *)
Record block_details := {
  bd_fileName : list Z;
  bd_seqId : Z;
  bd_fileSize : Z;
  bd_offset : Z;
  bd_dataSize : Z;
  bd_alloc : Z;
  bd_prevSeqId : Z
}.

(** [if (off >= max) fail; else dest[off++] = b]: Protocol.cpp:151-154,
    475-478. *)
Definition encodeByte (b : Z) : encoder := fun buf sz off =>
  if sz <=? off then Ret {| er_ok := false; er_buf := buf; er_pos := off |}
  else match upd buf off b with
       | None => Undef
       | Some buf' => Ret {| er_ok := true; er_buf := buf'; er_pos := off + 1 |}
       end.

Definition encC (v : Z) : encoder := fun buf sz off => encodeVarI64C buf sz off v.
Definition encS (s : list Z) : encoder := fun buf sz off => encodeString buf sz off s.

(** Protocol::encodeHeader, Protocol.cpp:139-166. *)
Definition encodeHeader (v : Z) (b : block_details) : encoder := fun buf max off =>
  if max <? 0 then Crash
  else
    enc_seq (encS (bd_fileName b))
   (enc_seq (encC (bd_seqId b))
   (enc_seq (encC (bd_dataSize b))
   (enc_seq (encC (bd_offset b))
   (enc_seq (encC (bd_fileSize b))
    (if HEADER_FLAG_AND_PREV_SEQ_ID_VERSION <=? v
     then enc_seq (encodeByte (bd_alloc b))
            (if (bd_alloc b =? EXISTS_TOO_SMALL) || (bd_alloc b =? EXISTS_TOO_LARGE)
             then encC (bd_prevSeqId b) else enc_nil)
     else enc_nil))))) buf max off.

(** br.front() / br.pop_front() guarded by br.empty(). *)
Definition decodeByte : decoder Z := fun br =>
  match br with
  | [] => Ret None
  | b :: rest => Ret (Some (b, rest))
  end.

(** Protocol::decodeHeader, Protocol.cpp:168-196. Fields that are not decoded
    keep the default of a fresh BlockDetails (ReceiverThread.cpp:406 declares a
    fresh one). *)
Definition decodeHeader (v : Z) : decoder block_details :=
  dbind decodeString (fun name =>
  dbind decodeInt64C (fun seqId =>
  dbind decodeInt64C (fun dataSize =>
  dbind decodeInt64C (fun offset =>
  dbind decodeInt64C (fun fileSize =>
  let mk a p := {| bd_fileName := name; bd_seqId := seqId; bd_fileSize := fileSize;
                   bd_offset := offset; bd_dataSize := dataSize;
                   bd_alloc := a; bd_prevSeqId := p |} in
  if HEADER_FLAG_AND_PREV_SEQ_ID_VERSION <=? v
  then dbind decodeByte (fun flags =>
       let a := Z.land flags 7 in
       if (a =? EXISTS_TOO_SMALL) || (a =? EXISTS_TOO_LARGE)
       then dbind decodeInt64C (fun prev => dret (mk a prev))
       else dret (mk a 0))
  else dret (mk NOT_EXISTS 0)))))).

(** struct Checkpoint, Protocol.h:35-75. *)
Record checkpoint := {
  ck_port : Z;
  ck_numBlocks : Z;
  ck_lastBlockSeqId : Z;
  ck_lastBlockOffset : Z;
  ck_lastBlockReceivedBytes : Z;
  ck_hasSeqId : bool
}.

(** One iteration of the loop of Protocol::encodeCheckpoints,
    Protocol.cpp:208-216. *)
Definition encodeCheckpoint1 (v : Z) (c : checkpoint) : encoder :=
  enc_seq (encC (ck_port c))
 (enc_seq (encC (ck_numBlocks c))
 (enc_seq (if CHECKPOINT_OFFSET_VERSION <=? v then encC (ck_lastBlockReceivedBytes c) else enc_nil)
  (if CHECKPOINT_SEQ_ID_VERSION <=? v
   then enc_seq (encC (ck_lastBlockSeqId c)) (encC (ck_lastBlockOffset c))
   else enc_nil))).

(** Protocol::encodeCheckpoints, Protocol.cpp:198-222. *)
Definition encodeCheckpoints (v : Z) (cs : list checkpoint) : encoder := fun buf max off =>
  if max <? 0 then Crash
  else
    enc_seq (fun b s o => encodeVarU64 b s o (zlen cs))
      (fold_right (fun c E => enc_seq (encodeCheckpoint1 v c) E) enc_nil cs) buf max off.

(** Body of the loop of Protocol::decodeCheckpoints, Protocol.cpp:232-262:
    starting from a fresh Checkpoint. [Ret None] stands for [ok = false].
    The 1.26 fix: seq-id decoded as 2^64-1 and version < 27 and bytes left:
    the next byte must be 0x01 and is consumed. *)
Definition decodeCheckpoint1 (v : Z) : decoder checkpoint :=
  dbind decodeInt32C (fun port =>
  dbind decodeInt64C (fun numBlocks =>
  dbind (if CHECKPOINT_OFFSET_VERSION <=? v then decodeInt64C else dret 0) (fun recv =>
  if CHECKPOINT_SEQ_ID_VERSION <=? v then
    dbind decodeUInt64 (fun uv =>
    dbind (fun br =>
             if (v <? VARINT_CHANGE) && (uv =? 2 ^ 64 - 1) then
               match br with
               | [] => Ret (Some (s64 uv, br))
               | b :: rest => if b =? 1 then Ret (Some (-1, rest)) else Ret None
               end
             else Ret (Some (s64 uv, br))) (fun seqId =>
    dbind decodeInt64C (fun off =>
    dret {| ck_port := port; ck_numBlocks := numBlocks; ck_lastBlockSeqId := seqId;
            ck_lastBlockOffset := off; ck_lastBlockReceivedBytes := recv;
            ck_hasSeqId := true |})))
  else
    dret {| ck_port := port; ck_numBlocks := numBlocks; ck_lastBlockSeqId := 0;
            ck_lastBlockOffset := 0; ck_lastBlockReceivedBytes := recv;
            ck_hasSeqId := false |}))).

(** A loop decoding [n] items, n an untrusted 64-bit number. Each item consumes
    at least one byte, so one unit of fuel per byte is enough; running out of
    fuel is [Undef] and excluded by the safety theorems. *)
Fixpoint dec_items {A} (fuel : nat) (n : Z) (D : decoder A) : decoder (list A) :=
  if n <=? 0 then dret []
  else match fuel with
       | O => fun _ => Undef
       | S f => dbind D (fun a => dbind (dec_items f (n - 1) D) (fun l => dret (a :: l)))
       end.
Definition dec_many {A} (n : Z) (D : decoder A) : decoder (list A) := fun br =>
  dec_items (S (length br)) n D br.

(** Protocol::decodeCheckpoints, Protocol.cpp:224-266. *)
Definition decodeCheckpoints (v : Z) : decoder (list checkpoint) :=
  dbind decodeUInt64 (fun len => dec_many len (decodeCheckpoint1 v)).

(** Protocol::encodeDone / decodeDone, Protocol.cpp:268-287. [bytesSent] is an
    in/out reference; the receiver passes a variable initialised to -1
    (ReceiverThread.cpp:695-697). *)
Definition encodeDone (v numBlocks bytesSent : Z) : encoder :=
  enc_seq (encC numBlocks)
    (if CHECKPOINT_OFFSET_VERSION <=? v then encC bytesSent else enc_nil).
Definition decodeDone (v bytes0 : Z) : decoder (Z * Z) :=
  dbind decodeInt64C (fun n =>
  if CHECKPOINT_OFFSET_VERSION <=? v
  then dbind decodeInt64C (fun b => dret (n, b))
  else dret (n, bytes0)).

(** Protocol::encodeSize / decodeSize, Protocol.cpp:289-301. *)
Definition encodeSize (n : Z) : encoder := encC n.
Definition decodeSize : decoder Z := decodeInt64C.

Definition encF (n : nat) (v : Z) : encoder := fun buf sz off =>
  encodeIntFixedLength n buf sz off v.

(** Protocol::encodeAbort, Protocol.cpp:303-317. [dest[off++] = errCode] is
    unchecked (the length was checked first). *)
Definition encodeAbort (protocolVersion errCode ckpt : Z) : encoder := fun buf max off =>
  if max <? off + kAbortLength
  then Ret {| er_ok := false; er_buf := buf; er_pos := off |}
  else
    enc_seq (encF 4 protocolVersion)
   (enc_seq (fun b _ o => match upd b o (errCode mod 256) with
                          | None => Undef
                          | Some b' => Ret {| er_ok := true; er_buf := b'; er_pos := o + 1 |}
                          end)
    (encF 8 ckpt)) buf max off.

(** Protocol::decodeAbort, Protocol.cpp:319-338 (after its own length check;
    [br.front()] on an empty range would be undefined). *)
Definition decodeAbort_body : decoder (Z * Z * Z) :=
  dbind decodeInt32FixedLength (fun v =>
  dbind (fun br => match br with [] => Undef | b :: rest => Ret (Some (b, rest)) end) (fun e =>
  dbind decodeInt64FixedLength (fun c => dret (v, e, c)))).
Definition decodeAbort (buf : list Z) (off max : Z) : outcome (option (Z * Z * Z * Z)) :=
  if max <? off + kAbortLength then Ret None
  else decode_at decodeAbort_body buf off max.

(** Protocol::encodeChunksCmd / decodeChunksCmd, Protocol.cpp:340-354. *)
Definition encodeChunksCmd (bufSize numFiles : Z) : encoder :=
  enc_seq (encF 8 bufSize) (encF 8 numFiles).
Definition decodeChunksCmd : decoder (Z * Z) :=
  dbind decodeInt64FixedLength (fun a => dbind decodeInt64FixedLength (fun b => dret (a, b))).

(** struct Interval, Protocol.h:80-105. *)
Record interval := { iv_start : Z; iv_end : Z }.

(** class FileChunksInfo, Protocol.h:108-193. *)
Record file_chunks := {
  fc_seqId : Z;
  fc_fileName : list Z;
  fc_fileSize : Z;
  fc_chunks : list interval
}.

(** Protocol::encodeChunkInfo / decodeChunkInfo, Protocol.cpp:356-364. The
    decoder does not check [end_ >= start_]. *)
Definition encodeChunkInfo (c : interval) : encoder :=
  enc_seq (encC (iv_start c)) (encC (iv_end c)).
Definition decodeChunkInfo : decoder interval :=
  dbind decodeInt64C (fun a => dbind decodeInt64C (fun b =>
  dret {| iv_start := a; iv_end := b |})).

(** Protocol::encodeFileChunksInfo, Protocol.cpp:366-381. *)
Definition encodeFileChunksInfo (f : file_chunks) : encoder :=
  enc_seq (encC (fc_seqId f))
 (enc_seq (encS (fc_fileName f))
 (enc_seq (encC (fc_fileSize f))
 (enc_seq (encC (zlen (fc_chunks f)))
  (fold_right (fun c E => enc_seq (encodeChunkInfo c) E) enc_nil (fc_chunks f))))).

(** Protocol::decodeFileChunksInfo, Protocol.cpp:383-407 (the test of a
    negative numChunks is unreachable). *)
Definition decodeFileChunksInfo : decoder file_chunks :=
  dbind decodeInt64C (fun seqId =>
  dbind decodeString (fun name =>
  dbind decodeInt64C (fun fileSize =>
  dbind decodeInt64C (fun numChunks =>
  if numChunks <? 0 then dfail
  else dbind (dec_many numChunks decodeChunkInfo) (fun chunks =>
       dret {| fc_seqId := seqId; fc_fileName := name; fc_fileSize := fileSize;
               fc_chunks := chunks |}))))).

(** Protocol::maxEncodeLen, Protocol.cpp:409-412. *)
Definition maxEncodeLen (f : file_chunks) : Z :=
  10 + 2 + zlen (fc_fileName f) + 10 + 10 + zlen (fc_chunks f) * kMaxChunkEncodeLen.

(** Protocol::encodeFileChunksInfoList, Protocol.cpp:414-436: encodes from the
    list suffix [fs] that starts at startIndex; returns the number encoded, the
    buffer and the offset. [oldOffset] is the offset at entry. *)
Fixpoint encodeFCList_loop (bufSize oldOffset : Z) (fs : list file_chunks)
    (buf : list Z) (off num : Z) : outcome (Z * list Z * Z) :=
  match fs with
  | [] => Ret (num, buf, off)
  | f :: rest =>
      if bufSize <? maxEncodeLen f + oldOffset
      then encodeFCList_loop bufSize oldOffset rest buf off num      (* continue *)
      else if bufSize <=? maxEncodeLen f + off
      then Ret (num, buf, off)                                        (* break *)
      else obind (encodeFileChunksInfo f buf bufSize off) (fun r =>
           encodeFCList_loop bufSize oldOffset rest (er_buf r) (er_pos r) (num + 1))
  end.
Definition encodeFileChunksInfoList (buf : list Z) (off bufSize startIndex : Z)
    (fs : list file_chunks) : outcome (Z * list Z * Z) :=
  encodeFCList_loop bufSize off (skipn (Z.to_nat startIndex) fs) buf off 0.

(** Protocol::decodeFileChunksInfoList, Protocol.cpp:438-452: until the range
    is empty. Fuel as in [dec_items]. *)
Fixpoint decFCList_loop (fuel : nat) : decoder (list file_chunks) := fun br =>
  match br with
  | [] => Ret (Some ([], []))
  | _ :: _ =>
      match fuel with
      | O => Undef
      | S f => dbind decodeFileChunksInfo (fun x =>
               dbind (decFCList_loop f) (fun l => dret (x :: l))) br
      end
  end.
Definition decodeFileChunksInfoList : decoder (list file_chunks) := fun br =>
  decFCList_loop (length br) br.

(** struct Settings, Protocol.h:223-238. *)
Record settings := {
  st_readTimeoutMillis : Z;
  st_writeTimeoutMillis : Z;
  st_transferId : list Z;
  st_enableChecksum : bool;
  st_sendFileChunks : bool;
  st_blockModeDisabled : bool;
  st_enableHeartBeat : bool
}.

Definition settings_flags (s : settings) : Z :=
  Z.lor (if st_enableChecksum s then 1 else 0)
 (Z.lor (if st_sendFileChunks s then 2 else 0)
 (Z.lor (if st_blockModeDisabled s then 4 else 0)
        (if st_enableHeartBeat s then 8 else 0))).

(** Protocol::encodeSettings, Protocol.cpp:454-481. *)
Definition encodeSettings (v : Z) (s : settings) : encoder :=
  enc_seq (encC v)
 (enc_seq (encC (st_readTimeoutMillis s))
 (enc_seq (encC (st_writeTimeoutMillis s))
 (enc_seq (encS (st_transferId s))
  (if SETTINGS_FLAG_VERSION <=? v then encodeByte (settings_flags s) else enc_nil)))).

(** Protocol::decodeVersion, Protocol.cpp:483-490. *)
Definition decodeVersion : decoder Z := decodeInt32C.

(** Protocol::decodeSettings, Protocol.cpp:492-521 (body; fresh Settings). *)
Definition decodeSettings_body (v : Z) : decoder settings :=
  dbind decodeInt32C (fun r =>
  dbind decodeInt32C (fun w =>
  dbind decodeString (fun id =>
  if SETTINGS_FLAG_VERSION <=? v
  then dbind decodeByte (fun flags =>
       dret {| st_readTimeoutMillis := r; st_writeTimeoutMillis := w; st_transferId := id;
               st_enableChecksum := Z.testbit flags 0;
               st_sendFileChunks := Z.testbit flags 1;
               st_blockModeDisabled := Z.testbit flags 2;
               st_enableHeartBeat := Z.testbit flags 3 |})
  else dret {| st_readTimeoutMillis := r; st_writeTimeoutMillis := w; st_transferId := id;
               st_enableChecksum := false; st_sendFileChunks := false;
               st_blockModeDisabled := false; st_enableHeartBeat := false |}))).
Definition decodeSettings (v : Z) (buf : list Z) (off max : Z) : outcome (option (settings * Z)) :=
  if off <? 0 then Ret None
  else if max <=? off then Ret None
  else decode_at (decodeSettings_body v) buf off max.

(** Protocol::encodeEncryptionSettings / decodeEncryptionSettings,
    Protocol.cpp:524-547. The decoded number is cast to the enum
    EncryptionType (EncryptionUtils.h:22); the model keeps the number. *)
Definition encodeEncryptionSettings (ty : Z) (iv : list Z) (tagInterval : Z) : encoder :=
  enc_seq (encC ty) (enc_seq (encS iv) (encF 4 tagInterval)).
Definition decodeEncryptionSettings : decoder (Z * list Z * Z) :=
  dbind decodeInt64C (fun ty => dbind decodeString (fun iv =>
  dbind decodeInt32FixedLength (fun tag => dret (ty, iv, tag)))).

(** Protocol::encodeFooter / decodeFooter, Protocol.cpp:549-561. *)
Definition encodeFooter (checksum : Z) : encoder := fun buf sz off =>
  encodeVarI64 buf sz off checksum.
Definition decodeFooter : decoder Z := decodeInt32.
