(** Properties C28 and C29: the encrypted stream. *)
From Verif Require Import Proofs.SocketIvFacts.

(** C28: whatever the sizes of the writes, the wire is the same, and it delivers the
    plaintext and then a last tag that verifies, whatever the pieces the network
    makes of it and the sizes of the reads. Timeouts only cost a further read,
    unless one hits the bytes of a tag or the byte behind it. *)
Theorem C28_delivers : forall K o iv ivs writes net reqs,
  0 <= so_k o -> good_cipher K -> good_ivs ivs ->
  Forall (fun bs => 0 < zlen bs) writes -> Forall (fun q => 0 < fst q) reqs ->
  let plain := concat writes in
  exists w, sock_writes K o (wsock0 iv ivs []) writes = Ret (true, w) /\ w_out w = wire K o (pst0 iv ivs) plain /\
    w_starts w = changes K o (pst0 iv ivs) plain /\
    (net_bytes net = w_out w ++ final_tag K w ->
     quiet K o (pst0 iv ivs) plain (timeouts 0 net) ->
     (length plain + length (timeouts 0 net) <= length reqs)%nat ->
     exists r, drain K o (rsock0 iv net) reqs (zlen plain) = Ret (plain, r) /\ r_starts r = w_starts w /\
       net_bytes (r_in r) = final_tag K w /\ (timeouts 0 net = [] -> finalizeReads K r = OK)).
Proof. exact stream_whole. Qed.
Print Assumptions C28_delivers.

(** Ten bytes, a tag every four, a new IV behind eight; written as 3 + 7 and read in
    pieces of 2, 5 and 3 with a timeout in between. *)
Example C28_delivers_example :
  let o := {| so_k := 4; so_lim := 8 |} in
  let w := match sock_writes toy o (wsock0 iv_a [iv_b] []) [[1; 2; 3]; [4; 5; 6; 7; 8; 9; 10]] with
           | Ret (_, w) => w | _ => wsock0 [] [] [] end in
  let wire := w_out w ++ final_tag toy w in
  w_starts w = [8] /\ zlen wire = 10 + 16 + 32 + 16 /\
  match drain toy o (rsock0 iv_a [NBytes (firstn 3 wire); NTimeout; NBytes (skipn 3 wire)])
          [(2, true); (5, false); (5, true); (3, true); (5, false); (5, false)] 10 with
  | Ret (bs, r) => bs = [1; 2; 3; 4; 5; 6; 7; 8; 9; 10] /\ r_starts r = [8] /\ finalizeReads toy r = OK
  | _ => False
  end.
Proof. vm_compute. repeat split. Qed.

(** C28: a writer that fails has put a beginning of this wire out, ... *)
Theorem C28_failed_write : forall K o iv ivs acc writes,
  Forall (fun bs => 0 < zlen bs) writes ->
  exists ok w rest, sock_writes K o (wsock0 iv ivs acc) writes = Ret (ok, w) /\
    wire K o (pst0 iv ivs) (concat writes) = w_out w ++ rest /\ (ok = true -> rest = []).
Proof. exact writes_prefix. Qed.
Print Assumptions C28_failed_write.

Example C28_failed_write_example :
  match sock_writes toy {| so_k := 4; so_lim := 0 |} (wsock0 iv_a [] [4; 5]) [[1; 2; 3; 4]; [5; 6]] with
  | Ret (ok, w) => ok = false /\ zlen (w_out w) = 4 + 5
  | _ => False
  end.
Proof. vm_compute. repeat split. Qed.

(** ... and from a beginning of the wire a reader gets a beginning of the plaintext,
    for all sizes of reads, unless a timeout comes directly behind a tag. *)
Theorem C28_prefix : forall K o iv ivs plain reqs net rest,
  0 <= so_k o -> good_cipher K -> good_ivs ivs -> Forall (fun q => 0 < fst q) reqs ->
  wire K o (pst0 iv ivs) plain = net_bytes net ++ rest ->
  unsplit K o (pst0 iv ivs) plain (timeouts 0 net) ->
  exists bs r', sock_reads K o (rsock0 iv net) reqs = Ret (bs, r') /\ (exists p2, plain = bs ++ p2) /\
    (live (r_err r') -> net_bytes net = wire K o (pst0 iv ivs) bs ++ net_bytes (r_in r')).
Proof. exact sock_reads_prefix. Qed.
Print Assumptions C28_prefix.

Example C28_prefix_example :
  let o := {| so_k := 4; so_lim := 0 |} in
  let w := wire toy o (pst0 iv_a []) [1; 2; 3; 4; 5; 6] in
  match sock_reads toy o (rsock0 iv_a [NBytes (firstn 4 w); NBytes (firstn 17 (skipn 4 w)); NTimeout]) [(3, false); (1, false); (9, true); (9, true)] with
  | Ret (bs, r) => bs = [1; 2; 3; 4; 5] /\ r_err r = SOCKET_READ_ERROR
  | _ => False
  end.
Proof. vm_compute. repeat split. Qed.

(** C28: from any wire whatever and with any timeouts, a byte behind a full interval
    is delivered only once a tag was read there that is the tag of all the
    ciphertext before it under this IV. No read crashes. *)
Theorem C28_verified : forall K o iv net reqs,
  0 <= so_k o -> Forall (fun q => 0 < fst q) reqs ->
  exists bs r, sock_reads K o (rsock0 iv net) reqs = Ret (bs, r) /\
    exists w extra lost s f, net_bytes net = w ++ extra ++ net_bytes (r_in r) /\
      taken true K o (pst0 iv [], false) w (bs ++ lost) (s, f) /\
      (r_err r = OK \/ r_err r = WDT_TIMEOUT -> extra = [] /\ lost = []).
Proof. exact reads_taken. Qed.
Print Assumptions C28_verified.

(** One changed bit: the interval with it is delivered, what follows is not. *)
Example C28_verified_example :
  let o := {| so_k := 4; so_lim := 0 |} in
  let w := wire toy o (pst0 iv_a []) [1; 2; 3; 4; 5; 6] in
  match sock_reads toy o (rsock0 iv_a [NBytes (Z.lxor (hd 0 w) 1 :: tl w)]) [(4, true); (2, true)] with
  | Ret (bs, r) => bs = [0; 2; 3; 4] /\ r_err r = ENCRYPTION_ERROR
  | _ => False
  end.
Proof. vm_compute. repeat split. Qed.

(** C28: an end of the stream that is accepted was the tag of all that was read. *)
Theorem C28_end : forall K r, finalizeReads K r = OK ->
  exists rest, net_bytes (r_in r) = tagf K (cr_iv (r_dec r)) (cr_c (r_dec r)) ++ rest.
Proof. exact finalizeReads_ok. Qed.
Print Assumptions C28_end.

Example C28_end_example :
  finalizeReads toy (rsock0 iv_a [NBytes (repeat 17 16)]) = OK /\
  finalizeReads toy (rsock0 iv_a [NBytes (repeat 17 15)]) = ENCRYPTION_ERROR.
Proof. vm_compute. repeat split. Qed.

(** C28 fails for a timeout directly behind a tag: the tag is taken, the read is said
    to be retryable, and the next read takes the data for another tag. All of the
    wire arrives, but the last two bytes are never delivered. *)
Theorem C28_timeout_refuted : exists K o iv plain net reqs,
  0 < so_k o /\ good_cipher K /\ Forall (fun q => 0 < fst q) reqs /\
  net_bytes net = wire K o (pst0 iv []) plain ++ tagf K iv (xor_from K iv 0 plain) /\
  (exists r, sock_reads K o (rsock0 iv net) (firstn 2 reqs) = Ret (firstn 4 plain, r) /\ r_err r = WDT_TIMEOUT) /\
  (exists r, drain K o (rsock0 iv net) reqs (zlen plain) = Ret (firstn 4 plain, r) /\ r_err r = ENCRYPTION_ERROR).
Proof.
  exists toy, {| so_k := 4; so_lim := 0 |}, iv_a, [1; 2; 3; 4; 5; 6].
  exists [NBytes [16; 26; 28; 34; 121; 121; 121; 121; 121; 121; 121; 121; 121; 121; 121; 121; 121; 121; 121; 121]; NTimeout;
          NBytes (skipn 20 (wire toy {| so_k := 4; so_lim := 0 |} (pst0 iv_a []) [1; 2; 3; 4; 5; 6])
                  ++ tagf toy iv_a (xor_from toy iv_a 0 [1; 2; 3; 4; 5; 6]))],
    [(4, true); (2, true); (2, true); (2, true)].
  split; [reflexivity|]. split; [exact toy_good|]. split; [repeat constructor|].
  vm_compute. split; [reflexivity|]. split; eexists; split; reflexivity.
Qed.
Print Assumptions C28_timeout_refuted.

(** C28 fails at the end of a message that ends a full interval: the reader asks for
    more than the rest of the interval, gets these bytes, waits for a tag which
    only comes with further data, and at the timeout drops the bytes it got. *)
Theorem C28_boundary_refuted : exists K o iv plain net,
  0 < so_k o /\ good_cipher K /\
  net_bytes net = wire K o (pst0 iv []) plain /\ zlen plain = so_k o /\
  exists r, sock_reads K o (rsock0 iv net) [(2, false); (4, false)] = Ret (firstn 2 plain, r) /\
    net_bytes (r_in r) = [] /\ r_err r = ENCRYPTION_ERROR.
Proof.
  exists toy, {| so_k := 4; so_lim := 0 |}, iv_a, [1; 2; 3; 4], [NBytes [16; 26]; NBytes [28; 34]; NTimeout].
  split; [reflexivity|]. split; [exact toy_good|]. vm_compute. split; [reflexivity|]. split; [reflexivity|]. eexists. repeat split.
Qed.
Print Assumptions C28_boundary_refuted.

(** C29: the writer changes the IV exactly at the multiples of the greatest multiple
    of the tag interval within the limit; no IV is used for more bytes than the
    limit. *)
Theorem C29_limit : forall K o iv ivs acc writes,
  0 < so_k o <= so_lim o -> Forall (fun bs => 0 < zlen bs) writes ->
  exists ok w, sock_writes K o (wsock0 iv ivs acc) writes = Ret (ok, w) /\
    (ok = true -> zlen (cr_c (w_enc w)) <= so_lim o /\
       forall x, In x (w_starts w) <-> 0 < x < zlen (concat writes) /\ x mod (so_k o * (so_lim o / so_k o)) = 0).
Proof. exact writer_limit. Qed.
Print Assumptions C29_limit.

Example C29_limit_example :
  match sock_writes toy {| so_k := 4; so_lim := 9 |} (wsock0 iv_a [iv_b; iv_a] []) [repeat 5 13; repeat 6 12] with
  | Ret (ok, w) => ok = true /\ w_starts w = [8; 16; 24] /\ zlen (cr_c (w_enc w)) = 1
  | _ => False
  end.
Proof. vm_compute. repeat split. Qed.

(** C29: also within a write, at every byte. *)
Theorem C29_every_byte : forall K o, 0 < so_k o -> so_k o <= so_lim o -> forall iv ivs p,
  zlen (x_c (after K o (pst0 iv ivs) p)) <= so_lim o.
Proof. exact iv_limit. Qed.
Print Assumptions C29_every_byte.

Example C29_every_byte_example :
  zlen (x_c (after toy {| so_k := 4; so_lim := 9 |} (pst0 iv_a [iv_b]) (repeat 5 8))) = 8 /\
  zlen (x_c (after toy {| so_k := 4; so_lim := 9 |} (pst0 iv_a [iv_b]) (repeat 5 9))) = 1.
Proof. vm_compute. repeat split. Qed.

(** C29: the reader changes it at the same positions. *)
Theorem C29_same : forall K o iv ivs writes w net reqs bs r,
  0 <= so_k o -> good_cipher K -> good_ivs ivs ->
  Forall (fun bs => 0 < zlen bs) writes -> Forall (fun q => 0 < fst q) reqs ->
  sock_writes K o (wsock0 iv ivs []) writes = Ret (true, w) ->
  net_bytes net = w_out w ++ final_tag K w ->
  quiet K o (pst0 iv ivs) (concat writes) (timeouts 0 net) ->
  (length (concat writes) + length (timeouts 0 net) <= length reqs)%nat ->
  drain K o (rsock0 iv net) reqs (zlen (concat writes)) = Ret (bs, r) ->
  r_starts r = w_starts w.
Proof. exact same_starts. Qed.
Print Assumptions C29_same.

Example C29_same_example :
  let o := {| so_k := 3; so_lim := 6 |} in
  match sock_writes toy o (wsock0 iv_a [iv_b; iv_a] []) [repeat 5 13] with
  | Ret (ok, w) =>
      match drain toy o (rsock0 iv_a [NBytes (w_out w ++ final_tag toy w)]) (repeat (5, true) 13) 13 with
      | Ret (bs, r) => w_starts w = [6; 12] /\ r_starts r = [6; 12] /\ bs = repeat 5 13
      | _ => False
      end
  | _ => False
  end.
Proof. vm_compute. repeat split. Qed.

(** C29 does not hold for a cipher without tags (CTR): the limit is then ignored. *)
Theorem C29_no_tags_refuted : exists o w,
  so_k o = 0 /\ 0 < so_lim o /\
  sock_writes toy o (wsock0 iv_a [iv_b] []) [repeat 5 20] = Ret (true, w) /\
  so_lim o < zlen (cr_c (w_enc w)) /\ w_starts w = [].
Proof. exists {| so_k := 0; so_lim := 8 |}. eexists. vm_compute. repeat split. Qed.
Print Assumptions C29_no_tags_refuted.

(** Nor, as the statement says, for a limit below the tag interval. *)
Theorem C29_small_limit_refuted : exists o w,
  0 < so_lim o < so_k o /\
  sock_writes toy o (wsock0 iv_a [iv_b] []) [repeat 5 6] = Ret (true, w) /\
  so_lim o < zlen (cr_c (w_enc w)).
Proof. exists {| so_k := 8; so_lim := 4 |}. eexists. vm_compute. repeat split. Qed.
Print Assumptions C29_small_limit_refuted.
