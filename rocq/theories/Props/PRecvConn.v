(** C25, C26, C27: one connection of a receiver thread. *)
From Verif Require Import Model.RecvConn Model.SendStream Spec.StreamSpec Spec.SentSpec Spec.BlockSpec Spec.BufferSpec
  Spec.ProtocolSpec Proofs.RecvCmdFacts Proofs.RecvTraceFacts Proofs.RecvSafeFacts Proofs.SentFacts Proofs.CrcFacts Proofs.RecvWitness.

(** C25. Whatever arrives in whatever pieces, whatever opening, writing, syncing
    and closing the file does: a block is confirmed only after exactly its number
    of bytes was written and the file closed, and the checksum of these bytes or a
    tag came; a partial count is the number of bytes written. *)
Theorem C25_confirmed fuel p envs buf l v sum0 c go :
  run_conn fuel p envs (fresh_conn buf l v sum0) = Ret (c, go) -> sound_record sum0 (rp_tags p) (rc_ev c).
Proof. exact (record_sound fuel p envs buf l v sum0 c go). Qed.
Print Assumptions C25_confirmed.

Definition ex_block (i : Z) : sblock :=
  {| sk_size := None; sk_status := 0;
     sk_block := {| bd_fileName := [97; 98]; bd_seqId := i; bd_dataSize := 10; bd_offset := 10 * i; bd_fileSize := 20;
       bd_alloc := NOT_EXISTS; bd_prevSeqId := 0 |};
     sk_data := repeat (i + 7) 10 |}.
Definition ex_sent (sum : bool) : list Z :=
  the (sent_stream 30 (if sum then w_settings else x_settings) [ex_block 0; ex_block 1] 0 2 20 (zeros 256)).
(** Two blocks, checksums, the second one damaged: only the first is confirmed. *)
Example C25_damaged :
  w_result (run_conn 2000 w_params [] (fresh_conn (zeros 4150) (cut [100] (splice (ex_sent true) 58 [9])) 30 false))
  = Some ([(0, repeat 7 10)], GoAccept CHECKSUM_MISMATCH).
Proof. vm_compute. reflexivity. Qed.
(** The write of the second block fails: it is counted with no byte. *)
Example C25_write_fails :
  match run_conn 2000 w_params [fenv_ok; fenv_ok; {| fe_open := true; fe_writes := [false]; fe_sync := true; fe_close := true; fe_abort := [] |}]
    (fresh_conn (zeros 4150) (cut [] (ex_sent false)) 30 false) with
  | Ret (c, go) => Some (map (fun e => match e with RPartial b n => Some (bd_offset b, n) | RVerified b => Some (bd_offset b, -1) | _ => None end) (rc_ev c), go)
  | _ => None
  end = Some ([None; None; None; None; Some (0, -1); None; Some (10, 0)], GoAbort FILE_WRITE_ERROR).
Proof. vm_compute. reflexivity. Qed.

(** Damage of a block's data which stays within four neighbouring bytes changes the
    number the footer carries, so it is never confirmed where checksums are on. *)
Theorem C25_damage_detected pre a b post :
  Forall (fun x => 0 <= x < 256) (pre ++ a ++ post) -> Forall (fun x => 0 <= x < 256) b ->
  length a = length b -> (length a <= 4)%nat -> a <> b ->
  to_i32 (crc32c (pre ++ a ++ post) 0) <> to_i32 (crc32c (pre ++ b ++ post) 0).
Proof. exact (damage_detected pre a b post). Qed.
Print Assumptions C25_damage_detected.
Example C25_damage_example :
  to_i32 (crc32c ([1; 2; 3] ++ [4; 5; 6; 7] ++ [8]) 0) <> to_i32 (crc32c ([1; 2; 3] ++ [0; 5; 255; 7] ++ [8]) 0).
Proof. vm_compute. discriminate. Qed.

(** The checksum is CRC-32C: run the standard way (from all ones, inverted at the
    end) it gives the check value and the vectors of RFC 3720, B.4. *)
Theorem C25_checksum_is_crc32c :
  (forall n bs, crc32c (repeat 0 n ++ bs) 0 = crc32c bs 0) /\
  map (fun bs => Z.lxor (crc32c bs 4294967295) 4294967295)
    [ [49; 50; 51; 52; 53; 54; 55; 56; 57]; repeat 0 32; repeat 255 32; map Z.of_nat (seq 0 32);
      map (fun k => 31 - Z.of_nat k) (seq 0 32) ]
  = [3808858755; 2324772522; 1655221059; 1188919630; 289397596].
Proof. exact (conj leading_zeros crc_vectors). Qed.
Print Assumptions C25_checksum_is_crc32c.

(** C26. A stream whose headers and settings are at most 256 bytes has one meaning:
    however it is cut, whatever the buffer held and however large it is. *)
Theorem C26_any_cut p v sum u evs go :
  spec_stream p {| ss_version := v; ss_checksum := sum; ss_slack := 0 |} u evs go -> bytes_ok u ->
  forall buf l, kMaxHeader <= zlen buf -> in_bytes l = u ->
  exists c, run_conn (length u) p [] (fresh_conn buf l v sum) = Ret (c, go) /\
    zlen (rc_buf c) = zlen buf /\ seen (negb (rp_tags p)) (rc_ev c) = seen (negb (rp_tags p)) evs.
Proof. exact (run_fresh p v sum u evs go). Qed.
Print Assumptions C26_any_cut.
(** What a sender thread sends is such a stream and means what it sent. *)
Theorem C26_sender_stream p v sum0 s st n b sbuf l : in_nat31 v -> 16 <= v -> settings_ok s ->
  zlen (st_transferId s) <= 200 -> bytes_ok (st_transferId s) -> st_transferId s = rp_id p ->
  st_sendFileChunks s = false -> is_byte st -> in_nat63 n -> in_nat63 b ->
  256 <= zlen sbuf -> bytes_ok sbuf -> Forall sblock_ok l ->
  exists u, sent_stream v s l st n b sbuf = Some u /\
    forall buf a, kMaxHeader <= zlen buf -> in_bytes a = u ->
    exists c, run_conn (length u) p [] (fresh_conn buf a v sum0) = Ret (c, GoWait) /\
      seen (negb (rp_tags p)) (rc_ev c) = seen (negb (rp_tags p)) (stream_events v s (rp_tags p) l st n b).
Proof. exact (sender_stream_received p v sum0 s st n b sbuf l). Qed.
Print Assumptions C26_sender_stream.
Example C26_pieces : Forall sblock_ok [ex_block 0; ex_block 1] /\
  map (fun k => w_result (run_conn 2000 w_params []
         (fresh_conn (repeat 76 (Z.to_nat 4150)) (cut (repeat k 40) (ex_sent true)) 30 false))) [1; 2; 3; 5; 7; 9; 13]
  = repeat (Some ([(0, repeat 7 10); (10, repeat 8 10)], GoWait)) 7.
Proof.
  split; [|vm_compute; reflexivity].
  repeat constructor; vm_compute; try discriminate; auto.
Qed.

(** With a longer header the cut matters. One stream with checksums, a file in
    three blocks: cut in one way the file is received, cut in another the third
    block's bytes are confirmed as the second block's, with no error reported. *)
Theorem C26_long_header_refuted : exists p buf l l' v sum c go c' go',
  in_bytes l = in_bytes l' /\ kMaxHeader <= zlen buf /\
  run_conn (length (in_bytes l)) p [] (fresh_conn buf l v sum) = Ret (c, go) /\
  run_conn (length (in_bytes l')) p [] (fresh_conn buf l' v sum) = Ret (c', go') /\
  go = GoWait /\ go' = GoWait /\
  confirmed (rc_ev c) [] = [(0, repeat 1 10); (10, repeat 2 10); (20, repeat 3 10)] /\
  confirmed (rc_ev c') [] = [(0, repeat 1 10); (10, repeat 2 10); (10, repeat 3 10)].
Proof. exact header_cut_matters. Qed.
Print Assumptions C26_long_header_refuted.
(** Cut in a third way the connection fails. *)
Theorem C26_long_header_fails_refuted : exists p buf l l' v sum c go c' e,
  in_bytes l = in_bytes l' /\ kMaxHeader <= zlen buf /\
  run_conn (length (in_bytes l)) p [] (fresh_conn buf l v sum) = Ret (c, go) /\
  run_conn (length (in_bytes l')) p [] (fresh_conn buf l' v sum) = Ret (c', GoFinish e) /\ go = GoWait.
Proof. exact header_cut_fails. Qed.
Print Assumptions C26_long_header_fails_refuted.

(** C27. Any traffic at all: between commands the position and the unread bytes are
    inside the buffer, and after each command too. *)
Theorem C27_position p buf l v sum c : bytes_ok buf -> bytes_ok (in_bytes l) ->
  commands p (fresh_conn buf l v sum) c -> in_buffer (zlen buf) c.
Proof. exact (buffer_inside p buf l v sum c). Qed.
Print Assumptions C27_position.
Theorem C27_after p buf l v sum c fe c' go : bytes_ok buf -> bytes_ok (in_bytes l) ->
  commands p (fresh_conn buf l v sum) c -> do_cmd p fe c = Ret (c', go) ->
  zlen (rc_buf c') = zlen buf /\ 0 <= rc_off c' <= zlen buf /\ rc_old c' + rc_num c' <= zlen buf.
Proof. exact (buffer_after p buf l v sum c fe c' go). Qed.
Print Assumptions C27_after.
(** An access outside the buffer happens in one place only: decoding a settings
    command that starts in the last 1066 bytes. Reads from the socket never. *)
Theorem C27_only_settings p buf l v sum c fe : bytes_ok buf -> bytes_ok (in_bytes l) ->
  commands p (fresh_conn buf l v sum) c -> do_cmd p fe c = Undef ->
  exists c1, readNextCmd p c = Ret (c1, GoSettings) /\
    rc_old c1 + 256 <= zlen buf < rc_old c1 + kMaxVersion + kMaxSettings.
Proof. exact (buffer_undef p buf l v sum c fe). Qed.
Print Assumptions C27_only_settings.
(** The fuel of [run_conn] is enough: no other [Undef]. *)
Theorem C27_ends p buf l v sum envs : bytes_ok buf -> bytes_ok (in_bytes l) ->
  run_conn (length (in_bytes l)) p envs (fresh_conn buf l v sum) = Undef ->
  exists c fe, commands p (fresh_conn buf l v sum) c /\ do_cmd p fe c = Undef.
Proof. exact (buffer_ends p buf l v sum envs). Qed.
Print Assumptions C27_ends.
(** Well formed traffic: neither a failed check nor an access outside. *)
Theorem C27_well_formed p v sum u evs go :
  spec_stream p {| ss_version := v; ss_checksum := sum; ss_slack := 0 |} u evs go -> bytes_ok u ->
  forall buf l, kMaxHeader <= zlen buf -> in_bytes l = u ->
  exists c, run_conn (length u) p [] (fresh_conn buf l v sum) = Ret (c, go).
Proof. exact (run_fresh_returns p v sum u evs go). Qed.
Print Assumptions C27_well_formed.
Example C27_reached : exists c, commands w_params (fresh_conn (zeros 4150) (cut [300] (ex_sent true)) 30 false) c /\
  rc_off c = 9 /\ rc_num c = 291.
Proof. eexists. split; [eapply (co_more _ _ _ _ fenv_ok); [constructor|vm_compute; reflexivity]|vm_compute; auto]. Qed.

(** The limits are needed. A sender's stream with a header of 3914 bytes and the
    smallest buffer the options allow: a check fails and the process ends. *)
Theorem C27_long_header_refuted : exists p buf v s a st b h,
  sent_settings v s = Some a /\ sent_header v st b = Some h /\ zlen buf = kMaxHeader /\ bytes_ok buf /\
  run_conn (length (a ++ h)) p [] (fresh_conn buf
    [Arr (a ++ firstn (Z.to_nat 256) h); Arr (skipn (Z.to_nat 256) h)] v false) = Crash.
Proof. exact long_header_crash. Qed.
Print Assumptions C27_long_header_refuted.
(** A transfer id of 300 bytes, the settings arriving in two pieces while the
    buffer still holds those of an earlier connection: a check fails. *)
Theorem C27_long_settings_refuted : exists p buf u l v s st n b,
  sent_stream v s [] st n b (zeros 256) = Some u /\ in_bytes l = u /\ zlen buf = kMaxHeader /\ bytes_ok buf /\
  zlen (st_transferId s) <= kMaxTransferIdLength /\
  run_conn (length u) p [] (fresh_conn buf l v false) = Crash.
Proof. exact long_settings_crash. Qed.
Print Assumptions C27_long_settings_refuted.
(** Settings late in the buffer are decoded with a limit behind its end. *)
Theorem C27_settings_late_refuted : exists p buf l v,
  kMaxHeader <= zlen buf /\ run_conn (length (in_bytes l)) p [] (fresh_conn buf l v false) = Undef.
Proof. exact settings_undef. Qed.
Print Assumptions C27_settings_late_refuted.
