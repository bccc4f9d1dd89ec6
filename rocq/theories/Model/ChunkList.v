(** The exchange of the list of already received files at the start of a
    resumed transfer: ReceiverThread::sendFileChunks (receiver writes) and
    SenderThread::readFileChunks (sender reads).

    The socket is a byte stream here: the receiver's writes succeed completely,
    the sender reads exactly the bytes written, in order. *)
From Verif Require Export Model.ProtocolCodec.

Definition CHUNKS_CMD := 67.  (* Protocol.h:283 *)

(** folly::storeUnaligned<int32_t>(buf_, x) little endian at offset 0,
    ReceiverThread.cpp:797-798 (truncation to int32). *)
Definition store32 (buf : list Z) (x : Z) : list Z := splice buf 0 (le_bytes 4 (x mod 2 ^ 32)).

(** One iteration of the loop ReceiverThread.cpp:793-807: encode from
    [written] on, prefix with the size, write. Returns the number of entries
    encoded, the message written and the buffer. *)
Definition send_round (bufSize : Z) (fs : list file_chunks) (buf : list Z) (written : Z)
    : outcome (Z * list Z * list Z) :=
  obind (encodeFileChunksInfoList buf 4 bufSize written fs) (fun r =>
    let '(num, buf1, off) := r in
    let buf2 := store32 buf1 (off - 4) in
    Ret (num, slice buf2 0 off, buf2)).

(** The loop ReceiverThread.cpp:793-807. [Ret None]: not finished after [fuel]
    iterations. *)
Fixpoint send_loop (fuel : nat) (bufSize : Z) (fs : list file_chunks) (buf : list Z) (written : Z)
    : outcome (option (list (list Z))) :=
  if written <? zlen fs then
    match fuel with
    | O => Ret None
    | S f =>
        obind (send_round bufSize fs buf written) (fun r =>
          let '(num, msg, buf') := r in
          obind (send_loop f bufSize fs buf' (written + num)) (fun o =>
            match o with
            | None => Ret None
            | Some ms => Ret (Some (msg :: ms))
            end))
    end
  else Ret (Some []).

(** ReceiverThread.cpp:770-807: the command, then the messages. The result is
    the list of socket writes. *)
Definition sendFileChunks (fuel : nat) (bufSize : Z) (fs : list file_chunks) (buf : list Z)
    : outcome (option (list (list Z))) :=
  match upd buf 0 CHUNKS_CMD with
  | None => Undef
  | Some buf0 =>
      obind (encodeChunksCmd bufSize (zlen fs) buf0 bufSize 1) (fun r =>
        let cmd := slice (er_buf r) 0 (er_pos r) in
        obind (send_loop fuel bufSize fs (er_buf r) 0) (fun o =>
          match o with
          | None => Ret None
          | Some ms => Ret (Some (cmd :: ms))
          end))
  end.

Inductive recv_result :=
| RReceived (fs : list file_chunks) (rest : list Z)  (* setFileChunksInfo, line 611 *)
| RSocketError                                       (* short read *)
| RProtocolError.

(** socket_->read into the first bytes of a fresh array of [cap] bytes: reads
    [n] bytes when the stream has them. The length is not compared with the
    size of the array (SenderThread.cpp:592-594): storing more than [cap] bytes
    is undefined. *)
Definition read_into (cap : Z) (stream : list Z) (n : Z) : outcome (option (list Z * list Z)) :=
  let got := Z.min (Z.max 0 n) (zlen stream) in
  if cap <? got then Undef
  else if got =? n then Ret (Some (slice stream 0 n, skipn (Z.to_nat n) stream))
  else Ret None.

(** The loop SenderThread.cpp:568-610. At least four bytes are consumed by each
    iteration, so one unit of fuel per byte is enough. *)
Fixpoint recv_loop (fuel : nat) (senderBuf bufSize numFiles : Z) (stream : list Z)
    (acc : list file_chunks) : outcome recv_result :=
  if numFiles <? zlen acc then Ret RProtocolError
  else if zlen acc =? numFiles then Ret (RReceived acc stream)
  else match fuel with
  | O => Undef
  | S f =>
      obind (read_into senderBuf stream 4) (fun o =>
        match o with
        | None => Ret RSocketError
        | Some (lenBytes, stream1) =>
            let toRead := sx 4 (le_value lenBytes) in
            obind (read_into bufSize stream1 toRead) (fun o2 =>
              match o2 with
              | None => Ret RSocketError
              | Some (data, stream2) =>
                  obind (decodeFileChunksInfoList data) (fun d =>
                    match d with
                    | None => Ret RProtocolError
                    | Some (fs, _) => recv_loop f senderBuf bufSize numFiles stream2 (acc ++ fs)
                    end)
              end)
        end)
  end.

(** SenderThread::readFileChunks, lines 542-611, from the command byte on (the
    other commands are handled before; decodeChunksCmd looks only at the 16
    bytes just read). [senderBuf] is the size of the sender's
    buf_ (at least kMaxHeader). *)
Definition readFileChunks (senderBuf : Z) (stream : list Z) : outcome recv_result :=
  match stream with
  | [] => Ret RSocketError
  | cmd :: stream0 =>
      if negb (cmd =? CHUNKS_CMD) then Ret RProtocolError
      else
        obind (read_into senderBuf stream0 kChunksCmdLen) (fun o =>
          match o with
          | None => Ret RSocketError
          | Some (bytes, stream1) =>
              obind (decodeChunksCmd bytes) (fun d =>
                match d with
                | None => Ret RProtocolError
                | Some ((bufSize, numFiles), _) =>
                    if (bufSize <? 0) || (numFiles <? 0) then Ret RProtocolError
                    else recv_loop (S (length stream1)) senderBuf bufSize numFiles stream1 []
                end)
          end)
  end.
