(** Connections on which the receiver goes wrong. *)
From Verif Require Import Model.RecvConn Model.SendStream Spec.BufferSpec Spec.BlockSpec
  Spec.ProtocolSpec Proofs.BytesFacts Proofs.ProtocolCodecFacts Proofs.SentFacts.

Lemma bytes_okb (l : list Z) : forallb (fun b => (0 <=? b) && (b <? 256)) l = true -> bytes_ok l.
Proof.
  intros H. apply Forall_forall. intros x Hx. rewrite forallb_forall in H. specialize (H x Hx).
  apply andb_prop in H as [H1 H2]. unfold is_byte. lia.
Qed.
Definition the (o : option (list Z)) : list Z := match o with Some u => u | None => [] end.
(** One file of 30 bytes with a name of 250 bytes, in three blocks, checksums on. *)
Definition w_name : list Z := repeat 97 (Z.to_nat 250).
Definition w_block (i : Z) : block_details :=
  {| bd_fileName := w_name; bd_seqId := 0; bd_dataSize := 10; bd_offset := 10 * i; bd_fileSize := 30;
     bd_alloc := NOT_EXISTS; bd_prevSeqId := 0 |}.
Definition w_sblock (i : Z) : sblock :=
  {| sk_size := None; sk_status := 0; sk_block := w_block i; sk_data := repeat (i + 1) 10 |}.
Definition w_settings : settings :=
  {| st_readTimeoutMillis := 5000; st_writeTimeoutMillis := 5000; st_transferId := [120];
     st_enableChecksum := true; st_sendFileChunks := false; st_blockModeDisabled := false; st_enableHeartBeat := false |}.
Definition zeros (n : Z) : list Z := repeat 0 (Z.to_nat n).
Definition w_sent : list Z := Eval vm_compute in
  the (sent_stream 30 w_settings [w_sblock 0; w_sblock 1; w_sblock 2] 0 3 30 (zeros 256)).
Lemma w_sent_ok : sent_stream 30 w_settings [w_sblock 0; w_sblock 1; w_sblock 2] 0 3 30 (zeros 256) = Some w_sent.
Proof. vm_compute. reflexivity. Qed.
(** Cuts a stream into pieces of the given sizes and the rest. *)
Fixpoint cut (sizes : list Z) (u : list Z) : list arrival :=
  match sizes with
  | [] => [Arr u]
  | n :: r => Arr (firstn (Z.to_nat n) u) :: cut r (skipn (Z.to_nat n) u)
  end.
Definition w_params : rparams := {| rp_id := [120]; rp_tags := false; rp_delete := false; rp_fail := false |}.
Local Notation w_run u := (run_conn (length (in_bytes u)) w_params [] (fresh_conn (zeros 4150) u 30 false)).

(** The offsets confirmed, and the bytes written for each. *)
Fixpoint confirmed (l : list revent) (data : list Z) : list (Z * list Z) :=
  match l with
  | [] => []
  | RHeader _ :: r => confirmed r []
  | RWrite bs :: r => confirmed r (data ++ bs)
  | RVerified b :: r => (bd_offset b, data) :: confirmed r data
  | _ :: r => confirmed r data
  end.
Definition w_result (o : outcome (rconn * rnext)) : option (list (Z * list Z) * rnext) :=
  match o with Ret (c, g) => Some (confirmed (rc_ev c) [], g) | _ => None end.
Lemma w_result_ret o x g : w_result o = Some (x, g) -> exists c, o = Ret (c, g) /\ confirmed (rc_ev c) [] = x.
Proof. destruct o as [[c g']| |]; try discriminate. intros E. injection E as E1 E2. exists c. subst. auto. Qed.
Definition w_cut : list Z := [280; 277; 256; 6; 5].
Lemma w_cut_same : in_bytes (cut w_cut w_sent) = in_bytes (cut [] w_sent).
Proof. vm_compute. reflexivity. Qed.
Lemma w_whole : w_result (w_run (cut [] w_sent)) =
  Some ([(0, repeat 1 10); (10, repeat 2 10); (20, repeat 3 10)], GoWait).
Proof. vm_compute. reflexivity. Qed.
Lemma w_pieces : w_result (w_run (cut w_cut w_sent)) =
  Some ([(0, repeat 1 10); (10, repeat 2 10); (10, repeat 3 10)], GoWait).
Proof. vm_compute. reflexivity. Qed.
(** The same stream, another cut: a protocol error. *)
Lemma w_error : exists b, w_result (w_run (cut [9; 256] w_sent)) = Some (b, GoFinish PROTOCOL_ERROR).
Proof. eexists. vm_compute. reflexivity. Qed.

Lemma header_cut_matters : exists p buf l l' v sum c go c' go',
  in_bytes l = in_bytes l' /\ kMaxHeader <= zlen buf /\
  run_conn (length (in_bytes l)) p [] (fresh_conn buf l v sum) = Ret (c, go) /\
  run_conn (length (in_bytes l')) p [] (fresh_conn buf l' v sum) = Ret (c', go') /\
  go = GoWait /\ go' = GoWait /\
  confirmed (rc_ev c) [] = [(0, repeat 1 10); (10, repeat 2 10); (20, repeat 3 10)] /\
  confirmed (rc_ev c') [] = [(0, repeat 1 10); (10, repeat 2 10); (10, repeat 3 10)].
Proof.
  destruct (w_result_ret _ _ _ w_whole) as (c & A1 & A2). destruct (w_result_ret _ _ _ w_pieces) as (c' & B1 & B2).
  exists w_params, (zeros 4150), (cut [] w_sent), (cut w_cut w_sent), 30, false, c, GoWait, c', GoWait.
  split; [exact (eq_sym w_cut_same)|]. split; [vm_compute; discriminate|].
  split; [exact A1|]. split; [exact B1|]. split; [reflexivity|]. split; [reflexivity|]. split; [exact A2|exact B2].
Qed.
Lemma header_cut_fails : exists p buf l l' v sum c go c' e,
  in_bytes l = in_bytes l' /\ kMaxHeader <= zlen buf /\
  run_conn (length (in_bytes l)) p [] (fresh_conn buf l v sum) = Ret (c, go) /\
  run_conn (length (in_bytes l')) p [] (fresh_conn buf l' v sum) = Ret (c', GoFinish e) /\ go = GoWait.
Proof.
  destruct w_error as (b & E).
  destruct (w_result_ret _ _ _ w_whole) as (c & A1 & A2). destruct (w_result_ret _ _ _ E) as (c' & B1 & B2).
  exists w_params, (zeros 4150), (cut [] w_sent), (cut [9; 256] w_sent), 30, false, c, GoWait, c', PROTOCOL_ERROR.
  split; [vm_compute; reflexivity|]. split; [vm_compute; discriminate|].
  split; [exact A1|]. split; [exact B1|reflexivity].
Qed.

(** A header of 3900 bytes behind the settings, in the smallest buffer. *)
Definition x_settings : settings :=
  {| st_readTimeoutMillis := 5000; st_writeTimeoutMillis := 5000; st_transferId := [120];
     st_enableChecksum := false; st_sendFileChunks := false; st_blockModeDisabled := false; st_enableHeartBeat := false |}.
Definition x_block : block_details :=
  {| bd_fileName := repeat 97 (Z.to_nat 3900); bd_seqId := 0; bd_dataSize := 10; bd_offset := 0;
     bd_fileSize := 10; bd_alloc := NOT_EXISTS; bd_prevSeqId := 0 |}.
Definition x_head : list Z := Eval vm_compute in the (sent_settings 30 x_settings).
Lemma x_head_ok : sent_settings 30 x_settings = Some x_head.
Proof. vm_compute. reflexivity. Qed.
Lemma x_header_ok : sent_header 30 0 x_block =
  Some (FILE_CMD :: 0 :: le16 (4 + zlen (header_bytes 30 x_block)) ++ header_bytes 30 x_block).
Proof.
  apply sent_header_any.
  - repeat split; vm_compute; first [reflexivity|discriminate].
  - vm_compute. discriminate.
Qed.
Lemma long_header_crash : exists p buf v s a st b h,
  sent_settings v s = Some a /\ sent_header v st b = Some h /\ zlen buf = kMaxHeader /\ bytes_ok buf /\
  run_conn (length (a ++ h)) p [] (fresh_conn buf
    [Arr (a ++ firstn (Z.to_nat 256) h); Arr (skipn (Z.to_nat 256) h)] v false) = Crash.
Proof.
  eexists w_params, (zeros 4150), 30, x_settings, x_head, 0, x_block, _. split; [exact x_head_ok|].
  split; [exact x_header_ok|]. split; [vm_compute; reflexivity|].
  split; [apply bytes_okb; vm_compute; reflexivity|]. vm_compute. reflexivity.
Qed.

(** Settings of more than 256 bytes of which 256 arrived, the rest lying in the
    buffer from an earlier connection. *)
Definition y_id : list Z := repeat 120 (Z.to_nat 300).
Definition y_settings : settings :=
  {| st_readTimeoutMillis := 5000; st_writeTimeoutMillis := 5000; st_transferId := y_id;
     st_enableChecksum := false; st_sendFileChunks := false; st_blockModeDisabled := false; st_enableHeartBeat := false |}.
Definition y_params : rparams := {| rp_id := y_id; rp_tags := false; rp_delete := false; rp_fail := false |}.
Lemma long_settings_crash : exists p buf u l v s st n b,
  sent_stream v s [] st n b (zeros 256) = Some u /\ in_bytes l = u /\ zlen buf = kMaxHeader /\ bytes_ok buf /\
  zlen (st_transferId s) <= kMaxTransferIdLength /\
  run_conn (length u) p [] (fresh_conn buf l v false) = Crash.
Proof.
  set (u := the (sent_stream 30 y_settings [] 0 0 0 (zeros 256))).
  exists y_params, (firstn (Z.to_nat 4150) (u ++ zeros 4150)), u, (cut [256] u), 30, y_settings, 0, 0, 0.
  split; [vm_compute; reflexivity|]. split; [vm_compute; reflexivity|]. split; [vm_compute; reflexivity|].
  split; [apply bytes_okb; vm_compute; reflexivity|].
  split; [vm_compute; discriminate|]. vm_compute. reflexivity.
Qed.

(** Settings sent once more behind 15 others. *)
Definition z_id : list Z := repeat 120 (Z.to_nat 200).
Definition z_settings : settings :=
  {| st_readTimeoutMillis := 5000; st_writeTimeoutMillis := 5000; st_transferId := z_id;
     st_enableChecksum := false; st_sendFileChunks := false; st_blockModeDisabled := false; st_enableHeartBeat := false |}.
Definition z_params : rparams := {| rp_id := z_id; rp_tags := false; rp_delete := false; rp_fail := false |}.
Definition z_stream : list Z := concat (repeat (the (sent_settings 30 z_settings)) 17).
Lemma settings_undef : exists p buf l v,
  kMaxHeader <= zlen buf /\ run_conn (length (in_bytes l)) p [] (fresh_conn buf l v false) = Undef.
Proof.
  exists z_params, (zeros 4150), (cut [] z_stream), 30. split; [vm_compute; discriminate|]. vm_compute. reflexivity.
Qed.
