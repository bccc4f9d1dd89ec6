(** One connection of a receiver thread: the receive buffer and the states
    READ_NEXT_CMD, PROCESS_SETTINGS_CMD, PROCESS_FILE_CMD, PROCESS_SIZE_CMD and
    PROCESS_DONE_CMD of ReceiverThread.cpp. Heart-beats, throttling, statistics
    other than the ones named, and the transfer log header are left out. *)
From Verif Require Export Model.ProtocolCodec Model.Stats.

(** Protocol.h:276-300, the commands a receiver accepts. *)
Definition DONE_CMD : Z := 68.
Definition FILE_CMD : Z := 76.
Definition SETTINGS_CMD : Z := 83.
Definition SIZE_CMD : Z := 90.
Definition FOOTER_CMD : Z := 70.

(** folly::crc32c (reflected polynomial 0x82F63B78), byte by byte from a starting
    value; used incrementally in ReceiverThread.cpp:500,540. *)
Definition crc_bit (c : Z) : Z :=
  if Z.odd c then Z.lxor (Z.shiftr c 1) 2197175160 else Z.shiftr c 1.
Definition crc_step (c b : Z) : Z :=
  crc_bit (crc_bit (crc_bit (crc_bit (crc_bit (crc_bit (crc_bit (crc_bit (Z.lxor c b)))))))).
Definition crc32c (bs : list Z) (start : Z) : Z := fold_left crc_step bs start.

(** What happens on the network side of the socket, in order: bytes arrive, or an
    encryption tag is verified (WdtSocket.cpp:290-299 then runs the callback). *)
Inductive arrival := Arr (bs : list Z) | ATag.
Fixpoint in_bytes (l : list arrival) : list Z :=
  match l with
  | [] => []
  | Arr bs :: r => bs ++ in_bytes r
  | ATag :: r => in_bytes r
  end.

(** What the receiver does, in order. [RHeader]: a well formed file command was
    accepted (line 467); [RWrite]: a write to the file succeeded; [RStored]: all
    of the block was written, synced and closed (line 583); [RFooter]: the
    checksum received, which matched; [RVerified]: markBlockVerified; [RPartial]: the guard of
    lines 477-487 put the number of bytes into the checkpoint. *)
Inductive revent :=
| RSettings (s : settings) | RSize (n : Z) | RDone (status blocks bytes : Z)
| RHeader (b : block_details) | RWrite (bs : list Z) | RStored | RFooter (got : Z)
| RTag | RVerified (b : block_details) | RPartial (b : block_details) (n : Z).

Record rconn := {
  rc_buf : list Z;          (* buf_, bufSize_ is its length *)
  rc_off : Z;               (* off_ *)
  rc_old : Z;               (* oldOffset_ *)
  rc_num : Z;               (* numRead_ *)
  rc_in : list arrival;
  rc_version : Z;           (* threadProtocolVersion_ *)
  rc_checksum : bool;       (* footerType_ == CHECKSUM_FOOTER *)
  rc_waiting : list block_details;   (* blocksWaitingVerification_ *)
  rc_ev : list revent
}.
(** [rp_tags]: the encryption type has tags; [rp_delete]: delete_extra_files;
    [rp_fail]: after the last arrival the socket reports an error, not the end. *)
Record rparams := { rp_id : list Z; rp_tags : bool; rp_delete : bool; rp_fail : bool }.

(** Next state of the thread, with the error code it sets. *)
Inductive rnext :=
| GoRead | GoSettings | GoFile | GoDone | GoSize
| GoAccept (e : Z) | GoFinish (e : Z) | GoAbort (e : Z) | GoChunks | GoWait.

Definition with_pos (c : rconn) (off num : Z) : rconn :=
  {| rc_buf := rc_buf c; rc_off := off; rc_old := rc_old c; rc_num := num; rc_in := rc_in c;
     rc_version := rc_version c; rc_checksum := rc_checksum c; rc_waiting := rc_waiting c;
     rc_ev := rc_ev c |}.
Definition with_old (c : rconn) (old : Z) : rconn :=
  {| rc_buf := rc_buf c; rc_off := rc_off c; rc_old := old; rc_num := rc_num c; rc_in := rc_in c;
     rc_version := rc_version c; rc_checksum := rc_checksum c; rc_waiting := rc_waiting c;
     rc_ev := rc_ev c |}.
Definition with_buf (c : rconn) (buf : list Z) : rconn :=
  {| rc_buf := buf; rc_off := rc_off c; rc_old := rc_old c; rc_num := rc_num c; rc_in := rc_in c;
     rc_version := rc_version c; rc_checksum := rc_checksum c; rc_waiting := rc_waiting c;
     rc_ev := rc_ev c |}.
Definition with_in (c : rconn) (l : list arrival) : rconn :=
  {| rc_buf := rc_buf c; rc_off := rc_off c; rc_old := rc_old c; rc_num := rc_num c; rc_in := l;
     rc_version := rc_version c; rc_checksum := rc_checksum c; rc_waiting := rc_waiting c;
     rc_ev := rc_ev c |}.
Definition with_mode (c : rconn) (v : Z) (sum : bool) : rconn :=
  {| rc_buf := rc_buf c; rc_off := rc_off c; rc_old := rc_old c; rc_num := rc_num c; rc_in := rc_in c;
     rc_version := v; rc_checksum := sum; rc_waiting := rc_waiting c; rc_ev := rc_ev c |}.
Definition with_wait (c : rconn) (w : list block_details) : rconn :=
  {| rc_buf := rc_buf c; rc_off := rc_off c; rc_old := rc_old c; rc_num := rc_num c; rc_in := rc_in c;
     rc_version := rc_version c; rc_checksum := rc_checksum c; rc_waiting := w; rc_ev := rc_ev c |}.
Definition log_ev (c : rconn) (e : list revent) : rconn :=
  {| rc_buf := rc_buf c; rc_off := rc_off c; rc_old := rc_old c; rc_num := rc_num c; rc_in := rc_in c;
     rc_version := rc_version c; rc_checksum := rc_checksum c; rc_waiting := rc_waiting c;
     rc_ev := rc_ev c ++ e |}.

(** The tag callback, ReceiverThread.cpp:684-689 (installed in listen()). *)
Definition on_tag (c : rconn) : rconn :=
  with_wait (log_ev c (RTag :: map RVerified (rc_waiting c))) [].

(** One call of socket_->read(buf_ + pos, max, tryFull = false) on the arrivals
    [l]: the callbacks of the tags passed, then the bytes available, at most
    [max]; [None]: end of stream or error. *)
Fixpoint sock_read (l : list arrival) (max : Z) (c : rconn) : option (list Z) * rconn :=
  match l with
  | [] => (None, with_in c [])
  | ATag :: r => sock_read r max (on_tag c)
  | Arr [] :: r => sock_read r max c
  | Arr bs :: r =>
      if zlen bs <=? max then (Some bs, with_in c r)
      else (Some (firstn (Z.to_nat max) bs), with_in c (Arr (skipn (Z.to_nat max) bs) :: r))
  end.
(** The same with the buffer: WDT_CHECK_GT(nbyte, 0) in WdtSocket.cpp:312; a
    request reaching outside the buffer is [Undef]. [None]: nothing was read. *)
Definition conn_read (c : rconn) (pos max : Z) : outcome (option (list Z) * rconn) :=
  if max <=? 0 then Crash
  else if (pos <? 0) || (zlen (rc_buf c) <? pos + max) then Undef
  else
    match sock_read (rc_in c) max c with
    | (None, c') => Ret (None, c')
    | (Some bs, c') => Ret (Some bs, with_buf c' (splice (rc_buf c') pos bs))
    end.

(** readAtLeast, ReceiverThread.cpp:30-61. Each round but the last brings at least
    one byte, so the number of bytes to come is enough fuel. *)
Fixpoint ral_loop (fuel : nat) (fail : bool) (c : rconn) (base max atLeast len : Z)
  : outcome (Z * rconn) :=
  if atLeast <=? len then Ret (len, c)
  else
    match fuel with
    | O => Undef
    | S n =>
        obind (conn_read c (base + len) (max - len)) (fun r =>
        match r with
        | (None, c') => Ret (if fail && (len =? 0) then -1 else len, c')
        | (Some bs, c') => ral_loop n fail c' base max atLeast (len + zlen bs)
        end)
    end.
Definition readAtLeast (p : rparams) (c : rconn) (base max atLeast len : Z)
  : outcome (Z * rconn) :=
  if (len <? 0) || (atLeast <=? 0) || (max <? atLeast) then Crash
  else ral_loop (S (length (in_bytes (rc_in c)))) (rp_fail p) c base max atLeast len.

(** readNextCmd, ReceiverThread.cpp:257-285. *)
Definition readNextCmd (p : rparams) (c : rconn) : outcome (rconn * rnext) :=
  let c0 := with_old c (rc_off c) in
  obind (readAtLeast p c0 (rc_off c) (zlen (rc_buf c) - rc_off c) kMinBufLength (rc_num c)) (fun x =>
  let '(n, c1) := x in
  if n <? kMinBufLength then Ret (with_pos c1 (rc_off c1) n, GoAccept SOCKET_READ_ERROR)
  else
    match rd (rc_buf c1) (rc_off c1) with
    | None => Undef
    | Some cmd =>
        let c2 := with_pos c1 (rc_off c1 + 1) n in
        if cmd =? DONE_CMD then Ret (c2, GoDone)
        else if cmd =? FILE_CMD then Ret (c2, GoFile)
        else if cmd =? SETTINGS_CMD then Ret (c2, GoSettings)
        else if cmd =? SIZE_CMD then Ret (c2, GoSize)
        else Ret (c2, GoFinish PROTOCOL_ERROR)
    end).

(** processSettingsCmd, ReceiverThread.cpp:288-368. The version part first. *)
Definition settings_version (v sender : Z) : rnext + Z :=
  if sender =? v then inr v
  else
    let n := negotiateProtocol sender v in
    if n =? 0 then inl (GoAbort VERSION_INCOMPATIBLE)
    else if n =? sender then inr n
    else inl (GoAbort VERSION_MISMATCH).
(** threadProtocolVersion_ after it. *)
Definition settings_new_version (v sender : Z) : Z :=
  if sender =? v then v
  else let n := negotiateProtocol sender v in if n =? 0 then v else n.
Definition processSettingsCmd (p : rparams) (c : rconn) : outcome (rconn * rnext) :=
  obind (decode_at decodeVersion (rc_buf c) (rc_off c) (rc_old c + kMaxVersion)) (fun r =>
  match r with
  | None => Ret (c, GoFinish PROTOCOL_ERROR)
  | Some (sv, off1) =>
      let c1 := with_mode (with_pos c off1 (rc_num c)) (settings_new_version (rc_version c) sv) (rc_checksum c) in
      match settings_version (rc_version c) sv with
      | inl go => Ret (c1, go)
      | inr v =>
          obind (decodeSettings v (rc_buf c) off1 (rc_old c + kMaxVersion + kMaxSettings)) (fun r2 =>
          match r2 with
          | None => Ret (c1, GoFinish PROTOCOL_ERROR)
          | Some (s, off2) =>
              if list_eq_dec Z.eq_dec (st_transferId s) (rp_id p) then
                let c2 := log_ev (with_mode (with_pos c1 off2 (rc_num c1)) v (st_enableChecksum s)) [RSettings s] in
                if st_sendFileChunks s then Ret (with_pos c2 0 0, GoChunks)
                else Ret (with_pos c2 off2 (rc_num c - (off2 - rc_old c)), GoRead)
              else Ret (with_pos c1 off2 (rc_num c1), GoAbort ID_MISMATCH)
          end)
      end
  end).

(** processSizeCmd, ReceiverThread.cpp:720-735. *)
Definition processSizeCmd (c : rconn) : outcome (rconn * rnext) :=
  obind (decode_at decodeSize (rc_buf c) (rc_off c) (rc_old c + kMaxSize)) (fun r =>
  match r with
  | None => Ret (c, GoFinish PROTOCOL_ERROR)
  | Some (n, off1) =>
      Ret (log_ev (with_pos c off1 (rc_num c - (off1 - rc_old c))) [RSize n], GoRead)
  end).

(** processDoneCmd, ReceiverThread.cpp:691-718. *)
Definition processDoneCmd (c : rconn) : outcome (rconn * rnext) :=
  if negb (rc_num c =? kMinBufLength) then Ret (c, GoFinish PROTOCOL_ERROR)
  else
    match rd (rc_buf c) (rc_off c) with
    | None => Undef
    | Some status =>
        obind (decode_at (decodeDone (rc_version c) (-1)) (rc_buf c) (rc_off c + 1) (rc_old c + kMaxDone)) (fun r =>
        match r with
        | None => Ret (c, GoFinish PROTOCOL_ERROR)
        | Some (nb, off1) =>
            Ret (log_ev (with_pos c off1 (rc_num c)) [RDone status (fst nb) (snd nb)], GoWait)
        end)
    end.

(** How the file side behaves during one file command: writer.open, the
    successive writer.write calls, writer.sync, writer.close (Model/DiskIO.v),
    and the abort code seen before each read of the loop. Used up lists mean
    success and no abort. *)
Record fenv := {
  fe_open : bool; fe_writes : list bool; fe_sync : bool; fe_close : bool; fe_abort : list bool
}.
Definition fenv_ok : fenv :=
  {| fe_open := true; fe_writes := []; fe_sync := true; fe_close := true; fe_abort := [] |}.
(** The guard of ReceiverThread.cpp:477-487. *)
Definition guard_partial (p : rparams) (c : rconn) (b : block_details) (total : Z) : rconn :=
  if negb (rp_tags p) && negb (rc_checksum c) then log_ev c [RPartial b total] else c.

(** The loop of ReceiverThread.cpp:524-561: total bytes written, checksum. The
    read goes to the start of the buffer (readAtMost, 63-79). *)
Inductive loopres := LDone (total sum : Z) (c : rconn) | LStop (total : Z) (c : rconn) (go : rnext).
Fixpoint data_loop (fuel : nat) (c : rconn) (dataSize total sum : Z) (writes aborts : list bool)
  : outcome loopres :=
  if dataSize <=? total then Ret (LDone total sum c)
  else if hd false aborts then Ret (LStop total c (GoFinish ABORT))
  else
    match fuel with
    | O => Undef
    | S n =>
        obind (conn_read c 0 (Z.min (dataSize - total) (zlen (rc_buf c)))) (fun r =>
        match r with
        | (None, c') => Ret (LDone total sum c')
        | (Some bs, c') =>
            let sum' := if rc_checksum c then crc32c bs sum else sum in
            if hd true writes
            then data_loop n (log_ev c' [RWrite bs]) dataSize (total + zlen bs) sum' (tl writes) (tl aborts)
            else Ret (LStop total c' (GoAbort FILE_WRITE_ERROR))
        end)
    end.

(** After the data, ReceiverThread.cpp:586-611: what is left in the buffer. *)
Definition keep_rest (c : rconn) (remaining : Z) : rconn :=
  if 0 <? remaining then
    if (remaining <? kMaxHeader) && (Z.quot (zlen (rc_buf c)) 2 <? rc_off c)
    then with_pos (with_buf c (splice (rc_buf c) 0 (slice (rc_buf c) (rc_off c) remaining))) 0 remaining
    else with_pos c (rc_off c) remaining
  else with_pos c 0 0.

(** The footer, ReceiverThread.cpp:612-651, and the end of processFileCmd. *)
Definition read_footer (p : rparams) (c : rconn) (b : block_details) (sum : Z) : outcome (rconn * rnext) :=
  let c0 := with_old c (rc_off c) in
  obind (readAtLeast p c0 (rc_off c) (zlen (rc_buf c) - rc_off c) kMinBufLength (rc_num c)) (fun x =>
  let '(n, c1) := x in
  if n <? kMinBufLength then Ret (with_pos c1 (rc_off c1) n, GoAccept SOCKET_READ_ERROR)
  else
    match rd (rc_buf c1) (rc_off c1) with
    | None => Undef
    | Some cmd =>
        let c2 := with_pos c1 (rc_off c1 + 1) n in
        if negb (cmd =? FOOTER_CMD) then Ret (c2, GoFinish PROTOCOL_ERROR)
        else
          obind (decode_at decodeFooter (rc_buf c2) (rc_off c2) (rc_old c2 + kMaxFooter)) (fun r =>
          match r with
          | None => Ret (c2, GoFinish PROTOCOL_ERROR)
          | Some (got, off1) =>
              let c3 := with_pos c2 off1 n in
              if negb (to_i32 sum =? got) then Ret (c3, GoAccept CHECKSUM_MISMATCH)
              else Ret (log_ev (with_pos c3 off1 (n - (off1 - rc_old c3))) [RFooter got; RVerified b], GoRead)
          end)
    end).
Definition finish_block (p : rparams) (c : rconn) (b : block_details) (sum : Z) : outcome (rconn * rnext) :=
  if rc_checksum c then read_footer p c b sum
  else if rp_tags p then Ret (with_wait c (rc_waiting c ++ [b]), GoRead)
  else Ret (log_ev c [RVerified b], GoRead).

(** From the accepted header on, ReceiverThread.cpp:467-611. [c]: off_ is behind
    the header, numRead_ as read. *)
Definition receive_block (p : rparams) (fe : fenv) (c : rconn) (b : block_details) : outcome (rconn * rnext) :=
  let c0 := log_ev c [RHeader b] in
  let stop total c' go := Ret (guard_partial p c' b total, go) in
  if (rp_delete p || negb (bd_alloc b =? TO_BE_DELETED)) && negb (fe_open fe)
  then stop 0 c0 (GoAbort FILE_WRITE_ERROR)
  else
    let remaining := rc_num c0 + rc_old c0 - rc_off c0 in
    if remaining <? 0 then Crash                                     (* line 500 *)
    else
      let toWrite := if bd_dataSize b <=? remaining then bd_dataSize b else remaining in
      if (toWrite <? 0) || (rc_off c0 <? 0) || (zlen (rc_buf c0) <? rc_off c0 + toWrite) then Undef
      else
        let bs := slice (rc_buf c0) (rc_off c0) toWrite in
        let sum0 := if rc_checksum c0 then crc32c bs 0 else 0 in
        if (0 <? toWrite) && negb (hd true (fe_writes fe)) then stop 0 c0 (GoAbort FILE_WRITE_ERROR)
        else
          let c1 := if 0 <? toWrite then log_ev c0 [RWrite bs] else c0 in
          let writes := if 0 <? toWrite then tl (fe_writes fe) else fe_writes fe in
          obind (data_loop (S (length (in_bytes (rc_in c1)))) (with_pos c1 (rc_off c1 + toWrite) (rc_num c1))
                   (bd_dataSize b) toWrite sum0 writes (fe_abort fe)) (fun r =>
          match r with
          | LStop total c2 go => stop total c2 go
          | LDone total sum c2 =>
              if negb (fe_sync fe) then stop total c2 (GoAbort FILE_WRITE_ERROR)
              else if negb (fe_close fe) then stop total c2 (GoAbort FILE_WRITE_ERROR)
              else if negb (total =? bd_dataSize b) then stop total c2 (GoAccept SOCKET_READ_ERROR)
              else finish_block p (keep_rest (log_ev c2 [RStored]) (remaining - toWrite)) b sum
          end).

(** int16_t from two bytes, ReceiverThread.cpp:418-419. *)
Definition int16_le (b0 b1 : Z) : Z :=
  let x := b0 + 256 * b1 in if x <? 2 ^ 15 then x else x - 2 ^ 16.

(** processFileCmd, ReceiverThread.cpp:390-666. Lines 431-435 pass buf_ + end and
    numRead_ to readAtLeast, which adds the length to the pointer once more. *)
Definition processFileCmd (p : rparams) (fe : fenv) (c : rconn) : outcome (rconn * rnext) :=
  match rd (rc_buf c) (rc_off c), rd (rc_buf c) (rc_off c + 1), rd (rc_buf c) (rc_off c + 2) with
  | Some _, Some b0, Some b1 =>
      let hlen := int16_le b0 b1 in
      if hlen <=? 0 then Ret (c, GoFinish PROTOCOL_ERROR)
      else
        obind (if rc_num c <? hlen
               then let e := rc_old c + rc_num c in
                    readAtLeast p c e (zlen (rc_buf c) - e) hlen (rc_num c)
               else Ret (rc_num c, c)) (fun x =>
        let '(n, c1) := x in
        if n <? hlen then Ret (with_pos c1 (rc_off c1) n, GoAccept SOCKET_READ_ERROR)
        else
          let off2 := rc_off c1 + 3 in
          let c2 := with_pos c1 off2 n in
          obind (decode_at (decodeHeader (rc_version c2)) (rc_buf c2) off2 (n + rc_old c2)) (fun r =>
          match r with
          | None => Ret (c2, GoFinish PROTOCOL_ERROR)
          | Some (b, off3) =>
              let c3 := with_pos c2 off3 n in
              if negb (hlen =? off3 - rc_old c3) then Ret (c3, GoFinish PROTOCOL_ERROR)
              else if (bd_alloc b =? TO_BE_DELETED) && (negb (bd_fileSize b =? 0) || negb (bd_dataSize b =? 0))
              then Ret (c3, GoFinish PROTOCOL_ERROR)
              else receive_block p fe c3 b
          end))
  | _, _, _ => Undef
  end.

(** READ_NEXT_CMD and the processing of the command. *)
Definition do_cmd (p : rparams) (fe : fenv) (c : rconn) : outcome (rconn * rnext) :=
  obind (readNextCmd p c) (fun x =>
  match snd x with
  | GoSettings => processSettingsCmd p (fst x)
  | GoFile => processFileCmd p fe (fst x)
  | GoDone => processDoneCmd (fst x)
  | GoSize => processSizeCmd (fst x)
  | _ => Ret x
  end).
(** Commands until the thread leaves these states; each uses at least one byte. *)
Fixpoint run_conn (fuel : nat) (p : rparams) (envs : list fenv) (c : rconn) : outcome (rconn * rnext) :=
  obind (do_cmd p (hd fenv_ok envs) c) (fun x =>
  match snd x with
  | GoRead => match fuel with
              | O => Undef
              | S n => run_conn n p (tl envs) (fst x)
              end
  | _ => Ret x
  end).
Definition conn_fuel (c : rconn) : nat := Z.to_nat (rc_num c) + length (in_bytes (rc_in c)).
(** A connection just accepted (ReceiverThread.cpp:226-231); the buffer holds
    whatever earlier connections left in it. *)
Definition fresh_conn (buf : list Z) (l : list arrival) (v : Z) (sum : bool) : rconn :=
  {| rc_buf := buf; rc_off := 0; rc_old := 0; rc_num := 0; rc_in := l; rc_version := v;
     rc_checksum := sum; rc_waiting := []; rc_ev := [] |}.
