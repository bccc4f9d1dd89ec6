(** A WdtSocket over its life (util/WdtSocket.cpp): the settings command that starts
    each direction, peers without encryption, the ends of the two directions, closing
    and the next connection. The encrypted stream itself is in Model/Socket.v. The
    secret has the length of a key; the calls of OpenSSL succeed. Reading or writing
    after the end of the direction fails a check in the code at the first byte
    (EncryptionUtils.cpp:285, 402); here it does whatever comes. *)
From Verif Require Export Model.Socket Model.ProtocolCodec.
From Verif Require Import Model.Uri.

(** Protocol.h:293 *)
Definition ENCRYPTION_CMD : Z := 101.
(** encryptionTypeToTagLen, EncryptionUtils.cpp:40-42. *)
Definition tagLen (ty : Z) : Z := if ty =? ENC_AES128_GCM then 16 else 0.

(** The members, WdtSocket.h:225-261. [s_type]: the type in encryptionParams_, ENC_NONE
    after erase(); [s_open]: fd_ >= 0; [s_decT], [s_encT]: the type with which decryptor_
    and encryptor_ were started, ENC_NONE if they are not; [s_last]: the last byte of
    buf_, which reading the settings does not fill; [s_r], [s_w]: the rest of the two
    directions; [s_closed]: how often ::close was called. *)
Record wdts := {
  s_type : Z; s_lim : Z; s_supp : bool; s_open : bool;
  s_setR : bool; s_setW : bool; s_decT : Z; s_encT : Z;
  s_rk : Z; s_wk : Z; s_last : Z; s_r : rsock; s_w : wsock;
  s_rfin : bool; s_wfin : bool; s_closed : Z
}.
Definition put_r (s : wdts) (r : rsock) : wdts :=
  {| s_type := s_type s; s_lim := s_lim s; s_supp := s_supp s; s_open := s_open s; s_setR := s_setR s; s_setW := s_setW s;
     s_decT := s_decT s; s_encT := s_encT s; s_rk := s_rk s; s_wk := s_wk s; s_last := s_last s; s_r := r; s_w := s_w s;
     s_rfin := s_rfin s; s_wfin := s_wfin s; s_closed := s_closed s |}.
Definition put_w (s : wdts) (w : wsock) : wdts :=
  {| s_type := s_type s; s_lim := s_lim s; s_supp := s_supp s; s_open := s_open s; s_setR := s_setR s; s_setW := s_setW s;
     s_decT := s_decT s; s_encT := s_encT s; s_rk := s_rk s; s_wk := s_wk s; s_last := s_last s; s_r := s_r s; s_w := w;
     s_rfin := s_rfin s; s_wfin := s_wfin s; s_closed := s_closed s |}.
Definition put_rk (s : wdts) (k : Z) : wdts :=
  {| s_type := s_type s; s_lim := s_lim s; s_supp := s_supp s; s_open := s_open s; s_setR := s_setR s; s_setW := s_setW s;
     s_decT := s_decT s; s_encT := s_encT s; s_rk := k; s_wk := s_wk s; s_last := s_last s; s_r := s_r s; s_w := s_w s;
     s_rfin := s_rfin s; s_wfin := s_wfin s; s_closed := s_closed s |}.
Definition r_fail (s : wdts) (e : Z) : wdts := put_r s (r_set (s_r s) e (r_in (s_r s))).
Definition w_setErr (w : wsock) (e : Z) : wsock :=
  {| w_enc := w_enc w; w_total := w_total w; w_err := e; w_ivs := w_ivs w; w_acc := w_acc w; w_out := w_out w;
     w_starts := w_starts w |}.

(** ** Reading *)
(** Successful end of readEncryptionSettingsOnce, WdtSocket.cpp:89-96: decryptor_ starts. *)
Definition startDec (s : wdts) (iv : list Z) : wdts :=
  let r := s_r s in
  {| s_type := s_type s; s_lim := s_lim s; s_supp := s_supp s; s_open := s_open s; s_setR := true; s_setW := s_setW s;
     s_decT := s_type s; s_encT := s_encT s; s_rk := s_rk s; s_wk := s_wk s; s_last := s_last s;
     s_r := {| r_dec := {| cr_iv := iv; cr_c := [] |}; r_total := r_total r; r_err := r_err r; r_in := r_in r;
               r_tags := r_tags r; r_starts := r_starts r |};
     s_w := s_w s; s_rfin := s_rfin s; s_wfin := s_wfin s; s_closed := s_closed s |}.
(** The rest of readEncryptionSettingsOnce behind the command byte, WdtSocket.cpp:51-96.
    22 bytes are read into buf_, but 23 are given to the decoder. *)
Definition settings_body (s : wdts) : outcome wdts :=
  let '(x, r2) := readInternal (s_r s) (kEncryptionCmdLen - 1) true in
  let s2 := put_r s r2 in
  if negb (zlen x =? kEncryptionCmdLen - 1) then Ret (r_fail s2 SOCKET_READ_ERROR)
  else
    obind (decode_at decodeEncryptionSettings (x ++ [s_last s]) 0 kEncryptionCmdLen) (fun d =>
    match d with
    | None => Ret (r_fail s2 PROTOCOL_ERROR)
    | Some ((ty, iv, k), _) =>
        let s3 := put_rk s2 k in
        if negb (ty =? s_type s) then Ret (r_fail s3 PROTOCOL_ERROR)
        else if k <? 0 then Ret (r_fail s3 PROTOCOL_ERROR)
        else if (0 <? k) && (tagLen ty =? 0) then Ret (r_fail s3 PROTOCOL_ERROR)
        else if negb (zlen iv =? kAESBlockSize) then Ret (r_fail s3 ENCRYPTION_ERROR)
        else Ret (startDec s3 iv)
    end).
(** readEncryptionSettingsOnce, WdtSocket.cpp:33-97, and the byte it left in buf_[0]
    when it is no ENCRYPTION_CMD. *)
Definition readSettingsOnce (s : wdts) : outcome (wdts * Z) :=
  if (s_type s =? ENC_NONE) || s_setR s then Ret (s, 0)
  else
    let '(b, r1) := readInternal (s_r s) 1 true in
    match b with
    | [] => Ret (put_r s r1, 0)
    | c :: _ =>
        if negb (c =? ENCRYPTION_CMD) then Ret (r_fail (put_r s r1) UNEXPECTED_CMD_ERROR, c)
        else obind (settings_body (put_r s r1)) (fun s' => Ret (s', 0))
    end.
(** encryptionParams_.erase(), WdtSocket.cpp:334, EncryptionUtils.cpp:79-88. *)
Definition erase (s : wdts) : wdts :=
  {| s_type := ENC_NONE; s_lim := s_lim s; s_supp := s_supp s; s_open := s_open s; s_setR := s_setR s; s_setW := s_setW s;
     s_decT := s_decT s; s_encT := s_encT s; s_rk := s_rk s; s_wk := s_wk s; s_last := s_last s; s_r := s_r s; s_w := s_w s;
     s_rfin := s_rfin s; s_wfin := s_wfin s; s_closed := s_closed s |}.
(** readInternal with 0 bytes wanted: ioWithAbortCheck returns 0 at once, which is
    taken for the end of the stream, WdtSocket.cpp:125-129. *)
Definition readPlain (r : rsock) (n : Z) (full : bool) : list Z * rsock :=
  if n <=? 0 then ([], r_set r SOCKET_READ_ERROR (r_in r)) else readInternal r n full.
Definition r_opts (s : wdts) : sopts := {| so_k := s_rk s; so_lim := s_lim s |}.
(** readWithTimeout, WdtSocket.cpp:310-371. No bytes stand for a result <= 0. *)
Definition readWithTimeout (K : cipher) (s : wdts) (n : Z) (full : bool) : outcome (list Z * wdts) :=
  if n <=? 0 then Crash
  else if negb (r_err (s_r s) =? OK) && negb (r_err (s_r s) =? WDT_TIMEOUT) then Ret ([], s)
  else
    obind (readSettingsOnce (r_fail s OK)) (fun x =>
    let '(s1, c) := x in
    if s_supp s && (r_err (s_r s1) =? UNEXPECTED_CMD_ERROR) then
      let s2 := erase (r_fail s1 OK) in
      let '(bs, r) := readPlain (s_r s2) (n - 1) full in Ret (c :: bs, put_r s2 r)
    else if negb (r_err (s_r s1) =? OK) then Ret ([], s1)
    else if s_type s1 =? ENC_NONE then
      let '(bs, r) := readPlain (s_r s1) n full in Ret (bs, put_r s1 r)
    else
      obind (sock_read_call K (r_opts s1) (s_r s1) n full) (fun y =>
      let '(bs, r) := y in
      match bs with
      | [] => Ret ([], put_r s1 r)
      | _ => if s_decT s1 =? ENC_NONE then Crash else Ret (bs, put_r s1 r)
      end)).
Fixpoint reads (K : cipher) (s : wdts) (l : list (Z * bool)) : outcome (list Z * wdts) :=
  match l with
  | [] => Ret ([], s)
  | (n, full) :: t =>
      obind (readWithTimeout K s n full) (fun x => let '(bs, s1) := x in
      obind (reads K s1 t) (fun y => let '(more, s2) := y in Ret (bs ++ more, s2)))
  end.

(** ** Writing *)
(** writeEncryptionSettingsOnce, WdtSocket.cpp:99-122. *)
Definition writeSettingsOnce (s : wdts) : outcome wdts :=
  if (s_type s =? ENC_NONE) || s_setW s then Ret s
  else if negb (s_encT s =? ENC_NONE) then Crash
  else
    let w := s_w s in
    let iv := hd iv0 (w_ivs w) in
    obind (encodeEncryptionSettings (s_type s) iv (s_wk s) (ENCRYPTION_CMD :: repeat 0 23) (1 + kEncryptionCmdLen) 1) (fun e =>
    let w1 := {| w_enc := {| cr_iv := iv; cr_c := [] |}; w_total := w_total w; w_err := w_err w; w_ivs := tl (w_ivs w);
                 w_acc := w_acc w; w_out := w_out w; w_starts := w_starts w |} in
    let '(ok, w2) := writeInternal w1 (firstn (Z.to_nat (er_pos e)) (er_buf e)) in
    Ret {| s_type := s_type s; s_lim := s_lim s; s_supp := s_supp s; s_open := s_open s; s_setR := s_setR s; s_setW := ok;
           s_decT := s_decT s; s_encT := s_type s; s_rk := s_rk s; s_wk := s_wk s; s_last := s_last s; s_r := s_r s; s_w := w2;
           s_rfin := s_rfin s; s_wfin := s_wfin s; s_closed := s_closed s |}).
Definition w_opts (s : wdts) : sopts := {| so_k := s_wk s; so_lim := s_lim s |}.
(** write, WdtSocket.cpp:484-522. *)
Definition write (K : cipher) (s : wdts) (bs : list Z) : outcome (bool * wdts) :=
  if zlen bs <=? 0 then Crash
  else if negb (w_err (s_w s) =? OK) then Ret (false, s)
  else
    obind (writeSettingsOnce s) (fun s1 =>
    if negb (w_err (s_w s1) =? OK) then Ret (false, s1)
    else if s_type s1 =? ENC_NONE then
      let '(ok, w) := writeInternal (s_w s1) bs in Ret (ok, put_w s1 w)
    else if s_encT s1 =? ENC_NONE then Crash
    else obind (sock_write K (w_opts s1) (s_w s1) bs) (fun x => let '(ok, w) := x in Ret (ok, put_w s1 w))).

(** ** The ends *)
(** finalizeWrites, WdtSocket.cpp:628-645, with finish, EncryptionUtils.cpp:323-333. *)
Definition finalizeWrites (K : cipher) (s : wdts) (tagIO : bool) : Z * wdts :=
  let tag := if s_encT s =? ENC_AES128_GCM then final_tag K (s_w s) else [] in
  let '(ok, w) := match tag with
                  | [] => (true, s_w s)
                  | _ => if tagIO then writeInternal (s_w s) tag else (true, s_w s)
                  end in
  (if ok then OK else ENCRYPTION_ERROR,
   {| s_type := s_type s; s_lim := s_lim s; s_supp := s_supp s; s_open := s_open s; s_setR := s_setR s; s_setW := s_setW s;
      s_decT := s_decT s; s_encT := ENC_NONE; s_rk := s_rk s; s_wk := s_wk s; s_last := s_last s; s_r := s_r s; s_w := w;
      s_rfin := s_rfin s; s_wfin := true; s_closed := s_closed s |}).
(** finish of the decryptor, EncryptionUtils.cpp:426-464. *)
Definition decFinish (K : cipher) (s : wdts) (tag : option (list Z)) : bool :=
  if s_decT s =? ENC_AES128_GCM
  then match tag with Some t => tag_ok K (r_dec (s_r s)) t | None => false end
  else true.
(** finalizeReads, WdtSocket.cpp:609-626. *)
Definition finalizeReadsIO (K : cipher) (s : wdts) (tagIO : bool) : Z * wdts :=
  let want := negb (tagLen (s_type s) =? 0) && tagIO in
  let '(tag, r) := if want then readEncryptionTag (s_r s) else (None, s_r s) in
  let s1 := put_r s r in
  let code := if want && match tag with Some _ => false | None => true end then ENCRYPTION_ERROR
              else OK in
  let code := if decFinish K s1 tag then code else ENCRYPTION_ERROR in
  (code,
   {| s_type := s_type s; s_lim := s_lim s; s_supp := s_supp s; s_open := s_open s; s_setR := s_setR s; s_setW := s_setW s;
      s_decT := ENC_NONE; s_encT := s_encT s; s_rk := s_rk s; s_wk := s_wk s; s_last := s_last s; s_r := r; s_w := s_w s;
      s_rfin := true; s_wfin := s_wfin s; s_closed := s_closed s |}).
(** expectEndOfStream, WdtSocket.cpp:601-603. *)
Definition expectEndOfStream (K : cipher) (s : wdts) : Z * wdts := finalizeReadsIO K s true.
(** shutdownWrites, WdtSocket.cpp:590-599. [ok]: what ::shutdown says. *)
Definition shutdownWrites (K : cipher) (s : wdts) (ok : bool) : Z * wdts :=
  let '(code, s1) := finalizeWrites K s true in
  ((if ok then code else if code =? OK then ERROR else code), s1).
(** getNonRetryableErrCode, WdtSocket.cpp:714-725. *)
Definition getNonRetryableErrCode (s : wdts) : Z :=
  let re := r_err (s_r s) in
  let we := w_err (s_w s) in
  let c := if negb (re =? OK) && negb (re =? SOCKET_READ_ERROR) && negb (re =? WDT_TIMEOUT) && negb (re =? ENCRYPTION_ERROR)
           then getMoreInterestingError OK re else OK in
  if negb (we =? OK) && negb (we =? SOCKET_WRITE_ERROR) && negb (we =? ENCRYPTION_ERROR)
  then getMoreInterestingError c we else c.
(** closeConnectionInternal, WdtSocket.cpp:654-684. [ok]: what ::close says. The IVs
    drawn so far stay drawn. *)
Definition close (K : cipher) (s : wdts) (tagIO ok : bool) : Z * wdts :=
  if negb (s_open s) then (OK, s)
  else
    let c0 := getNonRetryableErrCode s in
    let '(c1, s1) := if s_wfin s then (c0, s)
                     else let '(c, s') := finalizeWrites K s tagIO in (getMoreInterestingError c0 c, s') in
    let '(c2, s2) := if s_rfin s1 then (c1, s1)
                     else let '(c, s') := finalizeReadsIO K s1 tagIO in (getMoreInterestingError c1 c, s') in
    let c3 := if ok then c2 else getMoreInterestingError ERROR c2 in
    (c3,
     {| s_type := s_type s2; s_lim := s_lim s2; s_supp := s_supp s2; s_open := false; s_setR := false; s_setW := false;
        s_decT := ENC_NONE; s_encT := ENC_NONE; s_rk := s_rk s2; s_wk := s_wk s2; s_last := s_last s2;
        s_r := rsock0 iv0 []; s_w := wsock0 iv0 (w_ivs (s_w s2)) []; s_rfin := false; s_wfin := false;
        s_closed := s_closed s2 + 1 |}).

(** A new socket, WdtSocket.cpp:14-30, ServerSocket.cpp:19-29 ([supp] for a server). [k]:
    encryption_tag_interval_bytes; [last]: what the memory of buf_ holds. *)
Definition newSocket (ty lim : Z) (supp : bool) (k last : Z) (ivs : list (list Z)) : wdts :=
  {| s_type := ty; s_lim := lim; s_supp := supp; s_open := false; s_setR := false; s_setW := false;
     s_decT := ENC_NONE; s_encT := ENC_NONE; s_rk := 0; s_wk := if tagLen ty =? 0 then 0 else k; s_last := last;
     s_r := rsock0 iv0 []; s_w := wsock0 iv0 ivs []; s_rfin := false; s_wfin := false; s_closed := 0 |}.
(** setFd with a connection on which [l] will arrive and writes get out as [acc] says;
    ServerSocket.cpp:292, ClientSocket.cpp:71. *)
Definition setFd (s : wdts) (l : list net) (acc : list Z) : wdts :=
  let r := s_r s in
  let w := s_w s in
  {| s_type := s_type s; s_lim := s_lim s; s_supp := s_supp s; s_open := true; s_setR := s_setR s; s_setW := s_setW s;
     s_decT := s_decT s; s_encT := s_encT s; s_rk := s_rk s; s_wk := s_wk s; s_last := s_last s;
     s_r := {| r_dec := r_dec r; r_total := r_total r; r_err := r_err r; r_in := l; r_tags := 0; r_starts := [] |};
     s_w := {| w_enc := w_enc w; w_total := w_total w; w_err := w_err w; w_ivs := w_ivs w; w_acc := acc; w_out := [];
               w_starts := [] |};
     s_rfin := s_rfin s; s_wfin := s_wfin s; s_closed := s_closed s |}.

(** Calls on a connection, in any order, and what the reads among them delivered. *)
Inductive sop := ORead (n : Z) (full : bool) | OWrite (bs : list Z) | OShutdown (ok : bool) | OEnd.
Definition s_step (K : cipher) (s : wdts) (op : sop) : outcome (list Z * wdts) :=
  match op with
  | ORead n full => readWithTimeout K s n full
  | OWrite bs => obind (write K s bs) (fun x => Ret ([], snd x))
  | OShutdown ok => Ret ([], snd (shutdownWrites K s ok))
  | OEnd => Ret ([], snd (expectEndOfStream K s))
  end.
Fixpoint s_run (K : cipher) (s : wdts) (l : list sop) : outcome (list Z * wdts) :=
  match l with
  | [] => Ret ([], s)
  | op :: t =>
      obind (s_step K s op) (fun x => let '(bs, s1) := x in
      obind (s_run K s1 t) (fun y => let '(more, s2) := y in Ret (bs ++ more, s2)))
  end.
