(** The encrypted stream of util/WdtSocket.cpp: writing with tags and changes of the
    IV, and reading it back. Left out: aborts. Plain sockets, peers without
    encryption and the settings command are in Model/SocketLife.v; here its fields
    are fixed before the first byte. [kAESBlockSize] is 16. *)
From Verif Require Export Model.Varint Model.Stats.

(** AES-CTR and AES-GCM (util/EncryptionUtils.cpp:225-470) as a key stream and a
    tag: [ks iv i] is byte [i] of the key stream, [tagf iv c] the tag of the
    ciphertext [c]. The key is fixed. *)
Record cipher := { ks : list Z -> Z -> Z; tagf : list Z -> list Z -> list Z }.
(** An AESEncryptor or AESDecryptor that was started: the IV and the ciphertext so
    far, whose length is numProcessed_. *)
Record crypt := { cr_iv : list Z; cr_c : list Z }.
Fixpoint xor_from (K : cipher) (iv : list Z) (i : Z) (bs : list Z) : list Z :=
  match bs with
  | [] => []
  | b :: r => Z.lxor b (ks K iv i) :: xor_from K iv (i + 1) r
  end.
(** encrypt, EncryptionUtils.cpp:284-297. *)
Definition encrypt (K : cipher) (e : crypt) (bs : list Z) : list Z * crypt :=
  let x := xor_from K (cr_iv e) (zlen (cr_c e)) bs in
  (x, {| cr_iv := cr_iv e; cr_c := cr_c e ++ x |}).
(** decrypt, EncryptionUtils.cpp:401-413. *)
Definition decrypt (K : cipher) (e : crypt) (x : list Z) : list Z * crypt :=
  (xor_from K (cr_iv e) (zlen (cr_c e)) x, {| cr_iv := cr_iv e; cr_c := cr_c e ++ x |}).
(** verifyTag and finish, EncryptionUtils.cpp:415-464, for a tag of full length. *)
Definition tag_ok (K : cipher) (e : crypt) (tag : list Z) : bool :=
  if list_eq_dec Z.eq_dec tag (tagf K (cr_iv e) (cr_c e)) then true else false.

(** computeNextTagOffset, WdtSocket.cpp:223-233. *)
Definition computeNextTagOffset (total interval : Z) : Z :=
  if total =? 0 then interval
  else let n := interval - total mod interval in if n =? interval then 0 else n.

(** [ro_k]: the tag interval, 0 for none; [ro_lim]: ivChangeInterval_. *)
Record sopts := { so_k : Z; so_lim : Z }.

(** ** Writing *)
(** [w_acc]: how many bytes each writeInternal call gets out (all, when the list is
    used up); [w_ivs]: the IVs to be drawn; [w_out]: the bytes on the wire;
    [w_starts]: totalWritten_ at each change of the IV. *)
Record wsock := {
  w_enc : crypt; w_total : Z; w_err : Z; w_ivs : list (list Z); w_acc : list Z;
  w_out : list Z; w_starts : list Z
}.
Definition iv0 : list Z := repeat 0 16.

(** writeInternal, WdtSocket.cpp:142-168: all the bytes, or some of them and the
    error SOCKET_WRITE_ERROR. *)
Definition writeInternal (w : wsock) (bs : list Z) : bool * wsock :=
  match w_acc w with
  | a :: r =>
      if zlen bs <=? a
      then (true, {| w_enc := w_enc w; w_total := w_total w; w_err := w_err w; w_ivs := w_ivs w; w_acc := r;
                     w_out := w_out w ++ bs; w_starts := w_starts w |})
      else (false, {| w_enc := w_enc w; w_total := w_total w; w_err := SOCKET_WRITE_ERROR; w_ivs := w_ivs w; w_acc := r;
                      w_out := w_out w ++ firstn (Z.to_nat a) bs; w_starts := w_starts w |})
  | [] => (true, {| w_enc := w_enc w; w_total := w_total w; w_err := w_err w; w_ivs := w_ivs w; w_acc := [];
                    w_out := w_out w ++ bs; w_starts := w_starts w |})
  end.
Definition w_add (w : wsock) (n : Z) : wsock :=
  {| w_enc := w_enc w; w_total := w_total w + n; w_err := w_err w; w_ivs := w_ivs w; w_acc := w_acc w;
     w_out := w_out w; w_starts := w_starts w |}.
(** encryptAndWrite, WdtSocket.cpp:378-394; totalWritten_ is advanced by the callers
    after success. *)
Definition encryptAndWrite (K : cipher) (w : wsock) (bs : list Z) : outcome (bool * wsock) :=
  if zlen bs <=? 0 then Crash
  else
    let '(x, e) := encrypt K (w_enc w) bs in
    Ret (writeInternal {| w_enc := e; w_total := w_total w; w_err := w_err w; w_ivs := w_ivs w; w_acc := w_acc w;
                          w_out := w_out w; w_starts := w_starts w |} x).
(** checkAndChangeEncryptionIv, WdtSocket.cpp:396-421. *)
Definition checkAndChangeEncryptionIv (o : sopts) (w : wsock) : bool * wsock :=
  if so_lim o =? 0 then (true, w)
  else if zlen (cr_c (w_enc w)) + so_k o <=? so_lim o then (true, w)
  else
    let iv := hd iv0 (w_ivs w) in
    writeInternal {| w_enc := {| cr_iv := iv; cr_c := [] |}; w_total := w_total w; w_err := w_err w;
                     w_ivs := tl (w_ivs w); w_acc := w_acc w; w_out := w_out w;
                     w_starts := w_starts w ++ [w_total w] |} iv.
(** encryptAndWriteWithTag, WdtSocket.cpp:443-482. *)
Definition encryptAndWriteWithTag (K : cipher) (o : sopts) (w : wsock) (bs : list Z) : outcome (bool * wsock) :=
  if (so_k o <=? 0) || (so_k o <? zlen bs) then Crash
  else
    let nto := computeNextTagOffset (w_total w) (so_k o) in
    let rest r w' :=
      obind (encryptAndWrite K w' r) (fun x =>
      match x with
      | (true, w2) => Ret (true, w_add w2 (zlen r))
      | (false, w2) => Ret (false, w2)
      end) in
    if nto <? zlen bs then
      obind (if 0 <? nto
             then obind (encryptAndWrite K w (firstn (Z.to_nat nto) bs)) (fun x =>
                  match x with
                  | (true, w2) => Ret (true, w_add w2 nto)
                  | (false, w2) => Ret (false, w2)
                  end)
             else Ret (true, w)) (fun x =>
      match x with
      | (false, w1) => Ret (false, w1)
      | (true, w1) =>
          if negb (w_total w1 mod so_k o =? 0) then Crash
          else
            match writeInternal w1 (tagf K (cr_iv (w_enc w1)) (cr_c (w_enc w1))) with
            | (false, w2) => Ret (false, w2)
            | (true, w2) =>
                match checkAndChangeEncryptionIv o w2 with
                | (false, w3) =>
                    Ret (false, {| w_enc := w_enc w3; w_total := w_total w3; w_err := ENCRYPTION_ERROR; w_ivs := w_ivs w3;
                                   w_acc := w_acc w3; w_out := w_out w3; w_starts := w_starts w3 |})
                | (true, w3) => rest (skipn (Z.to_nat (Z.max 0 nto)) bs) w3
                end
            end
      end)
    else rest bs w.
(** The loop of write, WdtSocket.cpp:508-521. *)
Fixpoint write_loop (fuel : nat) (K : cipher) (o : sopts) (w : wsock) (bs : list Z) : outcome (bool * wsock) :=
  match bs, fuel with
  | [], _ => Ret (true, w)
  | _, O => Undef
  | _, S n =>
      let len := Z.to_nat (Z.min (zlen bs) (so_k o)) in
      obind (encryptAndWriteWithTag K o w (firstn len bs)) (fun x =>
      match x with
      | (true, w') => write_loop n K o w' (skipn len bs)
      | (false, w') => Ret (false, w')
      end)
  end.
(** write, WdtSocket.cpp:484-522. *)
Definition sock_write (K : cipher) (o : sopts) (w : wsock) (bs : list Z) : outcome (bool * wsock) :=
  if zlen bs <=? 0 then Crash
  else if negb (w_err w =? OK) then Ret (false, w)
  else if so_k o <=? 0 then encryptAndWrite K w bs
  else write_loop (length bs) K o w bs.
Fixpoint sock_writes (K : cipher) (o : sopts) (w : wsock) (l : list (list Z)) : outcome (bool * wsock) :=
  match l with
  | [] => Ret (true, w)
  | bs :: r =>
      obind (sock_write K o w bs) (fun x =>
      match x with
      | (true, w') => sock_writes K o w' r
      | (false, w') => Ret (false, w')
      end)
  end.
(** After the settings command with the first IV. *)
Definition wsock0 (iv : list Z) (ivs : list (list Z)) (acc : list Z) : wsock :=
  {| w_enc := {| cr_iv := iv; cr_c := [] |}; w_total := 0; w_err := OK; w_ivs := ivs; w_acc := acc;
     w_out := []; w_starts := [] |}.
(** The tag of finalizeWrites, WdtSocket.cpp:628-645 (GCM). *)
Definition final_tag (K : cipher) (w : wsock) : list Z := tagf K (cr_iv (w_enc w)) (cr_c (w_enc w)).

(** ** Reading *)
(** What comes from the network: bytes, or a pause long enough for a time-out. The
    end of the list is the end of the stream; an error is treated like it. *)
Inductive net := NBytes (bs : list Z) | NTimeout.
Fixpoint net_bytes (l : list net) : list Z :=
  match l with [] => [] | NBytes bs :: r => bs ++ net_bytes r | NTimeout :: r => net_bytes r end.
(** ioWithAbortCheck for reading, WdtSocket.cpp:536-588: [n] bytes at most, with
    [full] as many as come before the end or a time-out. The flag says that it
    ended by a time-out. *)
Fixpoint io_read (l : list net) (n : Z) (full : bool) : list Z * bool * list net :=
  match l with
  | [] => ([], false, [])
  | NTimeout :: r => ([], true, r)
  | NBytes [] :: r => io_read r n full
  | NBytes bs :: r =>
      if n <? zlen bs then (firstn (Z.to_nat n) bs, false, NBytes (skipn (Z.to_nat n) bs) :: r)
      else if n =? zlen bs then (bs, false, r)
      else if full then let '(more, t, r') := io_read r (n - zlen bs) full in (bs ++ more, t, r')
      else (bs, false, r)
  end.
(** [r_tags]: calls of tagVerificationSuccessCallback_; [r_starts]: totalRead_ at
    each change of the IV. *)
Record rsock := {
  r_dec : crypt; r_total : Z; r_err : Z; r_in : list net; r_tags : Z; r_starts : list Z
}.
Definition r_set (r : rsock) (e : Z) (l : list net) : rsock :=
  {| r_dec := r_dec r; r_total := r_total r; r_err := e; r_in := l; r_tags := r_tags r; r_starts := r_starts r |}.
Definition r_crypt (r : rsock) (d : crypt) (n : Z) : rsock :=
  {| r_dec := d; r_total := r_total r + n; r_err := r_err r; r_in := r_in r; r_tags := r_tags r; r_starts := r_starts r |}.
(** readInternal, WdtSocket.cpp:124-140; no bytes stand for a result <= 0. *)
Definition readInternal (r : rsock) (n : Z) (full : bool) : list Z * rsock :=
  let '(bs, t, l) := io_read (r_in r) n full in
  (bs, r_set r (match bs with [] => if t then WDT_TIMEOUT else SOCKET_READ_ERROR | _ => OK end) l).
(** readAndDecrypt, WdtSocket.cpp:235-251, and totalRead_ += ret of its callers. *)
Definition readAndDecrypt (K : cipher) (r : rsock) (n : Z) (full : bool) : outcome (list Z * rsock) :=
  if n <=? 0 then Crash
  else
    let '(x, r1) := readInternal r n full in
    match x with
    | [] => Ret ([], r1)
    | _ => let '(bs, d) := decrypt K (r_dec r1) x in Ret (bs, r_crypt r1 d (zlen x))
    end.
(** readEncryptionTag, WdtSocket.cpp:201-221. *)
Definition readEncryptionTag (r : rsock) : option (list Z) * rsock :=
  let '(x, r1) := readInternal r 16 true in
  if zlen x =? 16 then (Some x, r1) else (None, r_set r1 ENCRYPTION_ERROR (r_in r1)).
(** checkAndChangeDecryptionIv, WdtSocket.cpp:170-199. *)
Definition checkAndChangeDecryptionIv (K : cipher) (o : sopts) (r : rsock) (tag : list Z) : bool * rsock :=
  if so_lim o =? 0 then (true, r)
  else if zlen (cr_c (r_dec r)) + so_k o <=? so_lim o then (true, r)
  else
    let '(iv, r1) := readInternal r 16 true in
    if negb (zlen iv =? 16) then (false, r1)
    else if negb (tag_ok K (r_dec r1) tag) then (false, r1)
    else (true, {| r_dec := {| cr_iv := iv; cr_c := [] |}; r_total := r_total r1; r_err := r_err r1; r_in := r_in r1;
                   r_tags := r_tags r1; r_starts := r_starts r1 ++ [r_total r1] |}).
(** The part of readAndDecryptWithTag at a tag, WdtSocket.cpp:277-297. *)
Definition read_tag (K : cipher) (o : sopts) (r : rsock) : bool * rsock :=
  match readEncryptionTag r with
  | (None, r1) => (false, r1)
  | (Some tag, r1) =>
      if negb (tag_ok K (r_dec r1) tag) then (false, r_set r1 ENCRYPTION_ERROR (r_in r1))
      else
        let r2 := {| r_dec := r_dec r1; r_total := r_total r1; r_err := r_err r1; r_in := r_in r1;
                     r_tags := r_tags r1 + 1; r_starts := r_starts r1 |} in
        match checkAndChangeDecryptionIv K o r2 tag with
        | (false, r3) => (false, r_set r3 ENCRYPTION_ERROR (r_in r3))
        | (true, r3) => (true, r3)
        end
  end.
(** readAndDecryptWithTag, WdtSocket.cpp:253-308. The bytes got; none for a result
    <= 0. When the tag fails after some bytes were read the result is -1, so these
    bytes are not delivered. *)
Definition readAndDecryptWithTag (K : cipher) (o : sopts) (r : rsock) (n : Z) (full : bool)
  : outcome (list Z * rsock) :=
  if (so_k o <=? 0) || (so_k o <? n) then Crash
  else
    let nto := computeNextTagOffset (r_total r) (so_k o) in
    let rest got r' :=
      obind (readAndDecrypt K r' (n - zlen got) full) (fun x => let '(bs, r2) := x in Ret (got ++ bs, r2)) in
    if nto <? n then
      obind (if 0 <? nto then readAndDecrypt K r nto full else Ret ([], r)) (fun x =>
      let '(got, r1) := x in
      if (0 <? nto) && (zlen got <? nto) then Ret (got, r1)
      else if negb (r_total r1 mod so_k o =? 0) then Crash
      else
        match read_tag K o r1 with
        | (false, r2) => Ret ([], r2)
        | (true, r2) => rest got r2
        end)
    else rest [] r.
(** The loop of readWithTimeout, WdtSocket.cpp:354-370. *)
Fixpoint read_loop (fuel : nat) (K : cipher) (o : sopts) (r : rsock) (n : Z) (full : bool)
  : outcome (list Z * rsock) :=
  if n <=? 0 then Ret ([], r)
  else
    match fuel with
    | O => Undef
    | S f =>
        let toRead := Z.min n (so_k o) in
        obind (readAndDecryptWithTag K o r toRead full) (fun x =>
        let '(bs, r1) := x in
        if zlen bs <? toRead then Ret (bs, r1)
        else obind (read_loop f K o r1 (n - zlen bs) full) (fun y => let '(more, r2) := y in Ret (bs ++ more, r2)))
    end.
(** readWithTimeout, WdtSocket.cpp:310-371, once the settings command was read. *)
Definition sock_read_call (K : cipher) (o : sopts) (r : rsock) (n : Z) (full : bool) : outcome (list Z * rsock) :=
  if n <=? 0 then Crash
  else if negb (r_err r =? OK) && negb (r_err r =? WDT_TIMEOUT) then Ret ([], r)
  else
    let r0 := r_set r OK (r_in r) in
    if so_k o <=? 0 then readAndDecrypt K r0 n full
    else read_loop (Z.to_nat n) K o r0 n full.
(** A number of calls; the bytes they delivered together. *)
Fixpoint sock_reads (K : cipher) (o : sopts) (r : rsock) (l : list (Z * bool)) : outcome (list Z * rsock) :=
  match l with
  | [] => Ret ([], r)
  | (n, full) :: t =>
      obind (sock_read_call K o r n full) (fun x =>
      let '(bs, r1) := x in
      obind (sock_reads K o r1 t) (fun y => let '(more, r2) := y in Ret (bs ++ more, r2)))
  end.
Definition rsock0 (iv : list Z) (l : list net) : rsock :=
  {| r_dec := {| cr_iv := iv; cr_c := [] |}; r_total := 0; r_err := OK; r_in := l; r_tags := 0; r_starts := [] |}.
(** finalizeReads with doTagIOs, WdtSocket.cpp:609-626 (GCM). *)
Definition finalizeReads (K : cipher) (r : rsock) : Z :=
  match readEncryptionTag r with
  | (None, _) => ENCRYPTION_ERROR
  | (Some tag, r1) => if tag_ok K (r_dec r1) tag then OK else ENCRYPTION_ERROR
  end.
