(** Property C30: the settings handshake. *)
From Verif Require Import Proofs.HandshakeFacts.

(** C30: the settings with a transfer id of at most 237 bytes are understood, with and
    without resumption, whatever the two threads' buffers held and however the
    bytes arrive; what follows the settings is next in line. *)
Theorem C30_short : forall p v s sbuf m buf l rv sum rest,
  in_nat31 v -> 12 <= v <= rv -> settings_ok s -> zlen (st_transferId s) <= 237 ->
  kMaxHeader <= zlen sbuf -> kMaxHeader <= zlen buf ->
  sendSettings v s sbuf = Ret m -> in_bytes l = m ++ rest -> 256 <= zlen (in_bytes l) ->
  understood p v s rest (handshake p (fresh_conn buf l rv sum)).
Proof. exact handshake_short. Qed.
Print Assumptions C30_short.

(** With resumption over a used buffer, in three pieces. *)
Example C30_short_example :
  let s := sample [97; 98; 99] true in
  match sendSettings 33 s (filled 7) with
  | Ret m => zlen m = 256 /\
      match handshake (params [97; 98; 99]) (fresh_conn (filled 9)
              [Arr (firstn 2 m); ATag; Arr (firstn 5 (skipn 2 m)); Arr (skipn 7 m)] 33 false) with
      | Ret (c, go) => go = GoChunks /\ In (RSettings s) (rc_ev c)
      | _ => False
      end
  | _ => False
  end.
Proof. vm_compute. split; [reflexivity|]. split; [reflexivity|]. right. left. reflexivity. Qed.

(** Longer ids are understood without resumption, if the piece that brings the 256th
    byte brings the rest of the message too. *)
Theorem C30_lucky : forall p v s sbuf m buf l rv sum rest,
  in_nat31 v -> 12 <= v <= rv -> settings_ok s -> zlen (st_transferId s) <= kMaxTransferIdLength ->
  st_sendFileChunks s = false -> kMaxHeader <= zlen sbuf -> kMaxHeader <= zlen buf ->
  sendSettings v s sbuf = Ret m -> in_bytes l = m ++ rest -> 256 <= zlen (in_bytes l) -> arrives_whole (zlen m) l ->
  understood p v s rest (handshake p (fresh_conn buf l rv sum)).
Proof. exact handshake_lucky. Qed.
Print Assumptions C30_lucky.

Example C30_lucky_example :
  let id := repeat 65 (Z.to_nat 300) in
  match sendSettings 33 (sample id false) (filled 7) with
  | Ret m => zlen m = 309 /\ arrives_whole (zlen m) [Arr (firstn (Z.to_nat 255) m); Arr (skipn (Z.to_nat 255) m)] /\
      match handshake (params id) (fresh_conn (filled 9)
              [Arr (firstn (Z.to_nat 255) m); Arr (skipn (Z.to_nat 255) m)] 33 false) with
      | Ret (c, go) => go = GoRead /\ rc_num c = 0
      | _ => False
      end
  | _ => False
  end.
Proof.
  vm_compute. split; [reflexivity|]. split; [|split; reflexivity].
  eexists [_], _, []. split; [reflexivity|]. vm_compute. split; [reflexivity|discriminate].
Qed.

(** From 252 bytes on they are not. With resumption the sender cuts its message off
    behind 256 bytes: no such id works, however the bytes arrive; a new buffer of
    zeros is enough. *)
Theorem C30_resumption_long : forall p v s sbuf m l buf rv sum rest,
  in_nat31 v -> 12 <= v <= rv -> settings_ok s ->
  252 <= zlen (st_transferId s) <= kMaxTransferIdLength -> st_sendFileChunks s = true -> st_transferId s = rp_id p ->
  kMaxHeader <= zlen sbuf -> kMaxHeader <= zlen buf -> buf = repeat 0 (length buf) ->
  sendSettings v s sbuf = Ret m -> in_bytes l = m ->
  ~ understood p v s rest (handshake p (fresh_conn buf l rv sum)).
Proof. exact handshake_resumption_long. Qed.
Print Assumptions C30_resumption_long.

(** The receiver refuses its own id. *)
Example C30_resumption_long_example :
  let id := repeat 65 (Z.to_nat 300) in
  match sendSettings 33 (sample id true) (filled 0) with
  | Ret m => zlen m = 256 /\
      match handshake (params id) (fresh_conn (filled 0) [Arr m] 33 false) with
      | Ret (_, go) => go = GoAbort ID_MISMATCH
      | _ => False
      end
  | _ => False
  end.
Proof. vm_compute. split; reflexivity. Qed.

(** Without resumption the receiver takes the end of the message out of its old
    buffer when the first 256 bytes come alone. *)
Theorem C30_unlucky : forall p v s sbuf m buf rv sum rest,
  in_nat31 v -> 12 <= v <= rv -> settings_ok s ->
  252 <= zlen (st_transferId s) <= kMaxTransferIdLength -> st_sendFileChunks s = false -> st_transferId s = rp_id p ->
  kMaxHeader <= zlen sbuf -> kMaxHeader <= zlen buf -> buf = repeat 2 (length buf) ->
  sendSettings v s sbuf = Ret m ->
  ~ understood p v s rest (handshake p (fresh_conn buf
      [Arr (firstn (Z.to_nat 256) m); Arr (skipn (Z.to_nat 256) m ++ rest)] rv sum)).
Proof. exact handshake_unlucky. Qed.
Print Assumptions C30_unlucky.

Example C30_unlucky_example :
  let id := repeat 65 (Z.to_nat 300) in
  match sendSettings 33 (sample id false) (filled 0) with
  | Ret m =>
      match handshake (params id) (fresh_conn (filled 2)
              [Arr (firstn (Z.to_nat 256) m); Arr (skipn (Z.to_nat 256) m)] 33 false) with
      | Ret (_, go) => go = GoAbort ID_MISMATCH
      | _ => False
      end
  | _ => False
  end.
Proof. vm_compute. reflexivity. Qed.

(** So the claim for all ids up to the maximum is false, both with and without
    resumption. *)
Theorem C30_long_refuted : forall chunks, exists p v s sbuf m buf l,
  settings_ok s /\ zlen (st_transferId s) <= kMaxTransferIdLength /\ st_transferId s = rp_id p /\
  st_sendFileChunks s = chunks /\ zlen sbuf = kMaxHeader /\ zlen buf = kMaxHeader /\ bytes_ok buf /\
  sendSettings v s sbuf = Ret m /\ in_bytes l = m /\
  ~ understood p v s [] (handshake p (fresh_conn buf l v false)).
Proof. exact handshake_refuted. Qed.
Print Assumptions C30_long_refuted.
