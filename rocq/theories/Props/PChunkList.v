(** Property C07: the list of received files reaches the sender. *)
From Verif Require Import Proofs.ChunkListFacts.

(** C07: when every entry fits the receiver's buffer, sending takes at most one
    message per entry and the sender reads back exactly the list, leaving the
    rest of the stream. *)
Theorem C07_chunk_list_exchange : forall bufSize senderBuf fs buf rest,
  Forall (sendable bufSize) fs -> zlen fs < 2 ^ 63 ->
  17 <= bufSize < 2 ^ 31 -> bufSize <= zlen buf -> 16 <= senderBuf ->
  exists msgs,
    sendFileChunks (length fs) bufSize fs buf = Ret (Some msgs) /\
    readFileChunks senderBuf (concat msgs ++ rest) = Ret (RReceived fs rest).
Proof. exact chunk_list_exchange. Qed.
Print Assumptions C07_chunk_list_exchange.

Example C07_chunk_list_exchange_example :
  let fs := [small_entry; small_entry; small_entry] in
  Forall (sendable 80) fs /\
  exists a b c d, sendFileChunks 3 80 fs (repeat 0 80) = Ret (Some [a; b; c; d]).
Proof.
  split; [unfold sendable, file_chunks_ok, in_nat63; repeat constructor; vm_compute; congruence|].
  do 4 eexists; vm_compute; reflexivity.
Qed.

(** C07: with an entry too large for the buffer at the end of the list, the
    receiver writes messages forever. *)
Theorem C07_oversized_last_never_ends : forall bufSize fs f buf,
  Forall encodable (fs ++ [f]) -> zlen (fs ++ [f]) < 2 ^ 63 ->
  bufSize <= maxEncodeLen f + 4 -> 17 <= bufSize < 2 ^ 31 -> bufSize <= zlen buf ->
  forall fuel, sendFileChunks fuel bufSize (fs ++ [f]) buf = Ret None.
Proof. exact sendFileChunks_diverges. Qed.
Print Assumptions C07_oversized_last_never_ends.

(** C07 as stated (any list, any buffer size) is false: the exchange may not
    terminate ... *)
Theorem C07_termination_refuted :
  exists fs, Forall encodable fs /\
    forall fuel, sendFileChunks fuel 128 fs (repeat 0 128) = Ret None.
Proof. exact diverge_witness. Qed.
Print Assumptions C07_termination_refuted.

(** ... or deliver a different list: the oversized entry is dropped and the one
    after it arrives twice. *)
Theorem C07_exact_list_refuted :
  exists fs msgs got,
    Forall encodable fs /\
    sendFileChunks 5 128 fs (repeat 0 128) = Ret (Some msgs) /\
    readFileChunks 128 (concat msgs) = Ret (RReceived got []) /\
    fs = [big_entry; small_entry] /\ got = [small_entry; small_entry].
Proof. exact duplicate_witness. Qed.
Print Assumptions C07_exact_list_refuted.

(** C07: the sender trusts the length of a message: a receiver announcing a
    small buffer and then a longer message makes it write outside its buffer. *)
Theorem C07_sender_memory_safety_refuted :
  exists stream, bytes_ok stream /\ readFileChunks 256 stream = Undef.
Proof. exact overflow_witness. Qed.
Print Assumptions C07_sender_memory_safety_refuted.

(** C07: what the sender accepts has as many entries as announced, and the
    bytes after the list are left in the stream. *)
Theorem C07_received_as_announced : forall senderBuf stream fs rest,
  readFileChunks senderBuf stream = Ret (RReceived fs rest) ->
  exists cmd bufSize left used,
    stream = CHUNKS_CMD :: cmd ++ used ++ rest /\ zlen cmd = kChunksCmdLen /\
    decodeChunksCmd cmd = Ret (Some ((bufSize, zlen fs), left)) /\ 0 <= bufSize.
Proof. exact received_as_announced. Qed.
Print Assumptions C07_received_as_announced.

Example C07_received_as_announced_example :
  exists fs rest, readFileChunks 128 (CHUNKS_CMD :: le_bytes 8 80 ++ le_bytes 8 1 ++ fc_msg [small_entry] ++ [42])
    = Ret (RReceived fs rest) /\ zlen fs = 1 /\ rest = [42].
Proof. eexists _, _; split; [vm_compute; reflexivity|split; reflexivity]. Qed.

(** C07: an announcement with a negative number is refused. *)
Theorem C07_negative_announcement_refused : forall senderBuf a b rest,
  kChunksCmdLen <= senderBuf ->
  length a = 8%nat -> length b = 8%nat ->
  2 ^ 63 <= le_value a < 2 ^ 64 \/ 2 ^ 63 <= le_value b < 2 ^ 64 ->
  readFileChunks senderBuf (CHUNKS_CMD :: (a ++ b) ++ rest) = Ret RProtocolError.
Proof. exact negative_refused. Qed.
Print Assumptions C07_negative_announcement_refused.

Example C07_negative_announcement_refused_example :
  let a := repeat 255 8 in let b := le_bytes 8 1 in
  2 ^ 63 <= le_value a < 2 ^ 64 /\ le_value b = 1.
Proof. vm_compute. repeat split; congruence. Qed.

(** C07: more entries than announced are refused as soon as they arrive. *)
Theorem C07_surplus_refused : forall senderBuf cmd bufSize n left data fs left' rest,
  kChunksCmdLen <= senderBuf ->
  zlen cmd = kChunksCmdLen -> decodeChunksCmd cmd = Ret (Some ((bufSize, n), left)) ->
  zlen data <= bufSize -> bufSize < 2 ^ 31 -> decodeFileChunksInfoList data = Ret (Some (fs, left')) ->
  0 < n < zlen fs ->
  readFileChunks senderBuf (CHUNKS_CMD :: cmd ++ le_bytes 4 (zlen data) ++ data ++ rest) = Ret RProtocolError.
Proof. exact surplus_refused. Qed.
Print Assumptions C07_surplus_refused.

Example C07_surplus_refused_example :
  let cmd := le_bytes 8 80 ++ le_bytes 8 1 in
  let data := fc_bytes [small_entry; small_entry] in
  zlen cmd = kChunksCmdLen /\ decodeChunksCmd cmd = Ret (Some ((80, 1), [])) /\ zlen data <= 80 /\
  decodeFileChunksInfoList data = Ret (Some ([small_entry; small_entry], [])).
Proof. repeat split; vm_compute; congruence. Qed.
