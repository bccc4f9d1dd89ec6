(** C59: a socket with encryption over its life: what it delivers, what it sends, and
    what is left from one connection to the next. *)
From Verif Require Import Model.Uri Proofs.SocketIvFacts Proofs.SocketLifeFacts Proofs.SocketLifeSentFacts Proofs.SocketLifeWitness.
From Verif Require Import Spec.SocketLifeSpec.

(** Whatever comes from the network and in whatever order the calls are made, bytes
    are delivered only if they were got under the key, or if the socket takes
    unencrypted peers, the first byte starts no settings, and the key is given up. *)
Theorem C59_accepted : forall K n s l acc ops bs s',
  used K n s -> s_type s <> ENC_NONE -> Forall streaming ops -> s_run K (setFd s l acc) ops = Ret (bs, s') ->
  bs = [] \/
  (exists lost extra st, protected K (s_type s) (s_lim s) (s_last s) (net_bytes l) bs lost extra (net_bytes (r_in (s_r s'))) st /\
     s_type s' = s_type s /\ s_decT s' = s_type s /\
     (r_err (s_r s') = OK \/ r_err (s_r s') = WDT_TIMEOUT -> extra = [] /\ lost = [] /\ rel (s_r s') st)) \/
  (s_supp s = true /\ s_type s' = ENC_NONE /\ (forall c t, bs = c :: t -> c <> ENCRYPTION_CMD) /\
     net_bytes l = bs ++ net_bytes (r_in (s_r s'))).
Proof. exact accepted. Qed.
Print Assumptions C59_accepted.
Example C59_accepted_example :
  used toy 0 (srv 0) /\ s_type (srv 0) <> ENC_NONE /\ Forall streaming [ORead 2 true; OWrite [5]] /\
  run_out (s_run toy (setFd (srv 0) [NBytes right_wire] []) [ORead 2 true; OWrite [5]])
    = Ret ([1; 2], (ENC_AES128_GCM, OK, sent toy ENC_AES128_GCM 4 0 iv_a [iv_b] [5])).
Proof. split; [apply used_new|]. split; [discriminate|]. split; [repeat constructor|]. exact right_before. Qed.

(** If the end of the stream was asked for and found, the tag of all of it was there. *)
Theorem C59_end : forall K n s l acc ops bs s',
  used K n s -> s_type s = ENC_AES128_GCM -> Forall streaming ops -> s_run K (setFd s l acc) ops = Ret (bs, s') ->
  bs <> [] -> r_err (s_r s') = OK \/ r_err (s_r s') = WDT_TIMEOUT -> s_type s' <> ENC_NONE ->
  fst (expectEndOfStream K s') = OK ->
  exists st rest, protected K (s_type s) (s_lim s) (s_last s) (net_bytes l) bs [] [] (tagf K (x_iv st) (x_c st) ++ rest) st.
Proof. exact accepted_end. Qed.
Print Assumptions C59_end.
Example C59_end_example :
  exists s', s_run toy (setFd (srv 0) [NBytes (right_wire ++ end_tag toy ENC_AES128_GCM 4 0 iv_a [iv_b] [1; 2])] []) [ORead 2 true] = Ret ([1; 2], s') /\
    r_err (s_r s') = OK /\ s_type s' = ENC_AES128_GCM /\ fst (expectEndOfStream toy s') = OK.
Proof. eexists. split; [vm_compute; reflexivity|]. split; [vm_compute; reflexivity|]. split; vm_compute; reflexivity. Qed.

(** What is on the wire is the settings with a new IV and then nothing but the
    encrypted form of what was given to write; all of it if no write failed. *)
Theorem C59_sent : forall K n s l acc ops bs s' iv ivs,
  used K n s -> encrypting (s_type s) -> w_ivs (s_w s) = iv :: ivs -> zlen iv = 16 -> Forall read_or_write ops ->
  s_run K (setFd s l acc) ops = Ret (bs, s') -> s_type s' <> ENC_NONE ->
  exists rest, sent K (s_type s) (s_wk s) (s_lim s) iv ivs (written ops) = w_out (s_w s') ++ rest /\ (w_err (s_w s') = OK -> rest = []).
Proof. exact sent_by. Qed.
Print Assumptions C59_sent.
Example C59_sent_example :
  used toy 0 cli /\ encrypting (s_type cli) /\ w_ivs (s_w cli) = [iv_a; iv_b] /\
  (exists s', s_run toy (setFd cli [] [23; 1]) [OWrite [1; 2]] = Ret ([], s') /\
    w_out (s_w s') = firstn 24 right_wire /\ w_err (s_w s') = SOCKET_WRITE_ERROR).
Proof.
  split; [apply used_new|]. split; [right; reflexivity|]. split; [reflexivity|]. eexists. split; [vm_compute; reflexivity|]. split; vm_compute; reflexivity.
Qed.

(** What one socket was given to write, with the end of the writes, is what the other
    one delivers, however the network cuts it into pieces; and the end is found. *)
Theorem C59_roundtrip : forall K n a m b la acca ops got a' a2 iv ivs l accb reqs,
  good_cipher K -> used K n a -> used K m b -> encrypting (s_type a) -> s_type b = s_type a -> s_lim b = s_lim a ->
  w_ivs (s_w a) = iv :: ivs -> good_ivs (iv :: ivs) -> in_nat31 (s_wk a) ->
  Forall read_or_write ops -> written ops <> [] -> s_run K (setFd a la acca) ops = Ret (got, a') -> s_type a' <> ENC_NONE ->
  w_err (s_w a') = OK -> shutdownWrites K a' true = (OK, a2) ->
  net_bytes l = w_out (s_w a2) ->
  (forall t, In t (timeouts 0 l) -> t = 0 \/ 23 <= t) ->
  quiet K {| so_k := s_wk a; so_lim := s_lim a |} (pst0 iv ivs) (written ops) (map (fun t => t - 23) (timeouts 0 l)) ->
  Forall (fun q => 0 < fst q) reqs -> (length (written ops) + length (timeouts 0 l) <= length reqs)%nat ->
  exists b', wants K (setFd b l accb) reqs (zlen (written ops)) = Ret (written ops, b') /\ s_type b' = s_type a /\
    (timeouts 0 l = [] -> fst (expectEndOfStream K b') = OK /\ net_bytes (r_in (s_r (snd (expectEndOfStream K b')))) = []).
Proof. exact roundtrip. Qed.
Print Assumptions C59_roundtrip.
Example C59_roundtrip_example :
  exists a' a2, s_run toy (setFd cli [] []) [OWrite [1; 2; 3]; OWrite [4; 5]] = Ret ([], a') /\ w_err (s_w a') = OK /\
    shutdownWrites toy a' true = (OK, a2) /\ zlen (w_out (s_w a2)) = 23 + 5 + 16 + 16 /\
    (exists b', wants toy (setFd (srv 9) [NTimeout; NBytes (firstn 30 (w_out (s_w a2))); NBytes (skipn 30 (w_out (s_w a2)))] [])
       (repeat (3, false) 6) 5 = Ret ([1; 2; 3; 4; 5], b') /\ fst (expectEndOfStream toy b') = OK).
Proof.
  eexists _, _. split; [vm_compute; reflexivity|]. split; [vm_compute; reflexivity|]. split; [vm_compute; reflexivity|].
  split; [vm_compute; reflexivity|]. eexists. split; vm_compute; reflexivity.
Qed.

(** No check fails, whatever bytes come, unless a direction is used after its end. *)
Theorem C59_no_crash : forall K n s l acc ops,
  used K n s -> known (s_type s) -> is_byte (s_last s) -> good_ivs (w_ivs (s_w s)) ->
  bytes_ok (net_bytes l) -> orderly false false ops -> exists bs s', s_run K (setFd s l acc) ops = Ret (bs, s').
Proof. exact used_no_crash. Qed.
Print Assumptions C59_no_crash.
Example C59_no_crash_example :
  orderly false false [OWrite [1]; ORead 3 true; OShutdown true; ORead 1 true; OEnd] /\
  run_out (s_run toy (setFd (srv 0) [NBytes (101 :: repeat 255 30)] []) [OWrite [1]; ORead 3 true; OShutdown true; ORead 1 true; OEnd]) =
    Ret ([], (ENC_AES128_GCM, ENCRYPTION_ERROR, sent toy ENC_AES128_GCM 4 0 iv_a [iv_b] [1] ++ end_tag toy ENC_AES128_GCM 4 0 iv_a [iv_b] [1])) /\
  s_run toy (setFd cli [] []) [OWrite [1]; OShutdown true; OWrite [2]] = Crash.
Proof. split; [cbn [orderly]; repeat (split; [reflexivity|]); exact I|]. split; [vm_compute; reflexivity|exact write_after_end]. Qed.

(** Between connections nothing is left but the IVs that were drawn; every connection
    was closed once. *)
Theorem C59_closed : forall K n s, used K n s -> idle s /\ s_closed s = n.
Proof. exact used_idle. Qed.
Print Assumptions C59_closed.
Example C59_closed_example : used toy 1 after_plain /\ idle after_plain /\ s_closed after_plain = 1.
Proof. split; [exact after_plain_used|]. exact (used_idle _ _ _ after_plain_used). Qed.

(** Refuted: a socket that was given a key delivers only what was got under it. *)
Theorem C59_plain_refuted : exists s l ops bs s',
  used toy 0 s /\ s_type s = ENC_AES128_GCM /\ s_run toy (setFd s l []) ops = Ret (bs, s') /\
  net_bytes l = [7; 8; 9] /\ bs = [7; 8; 9] /\ r_err (s_r s') = OK /\ w_out (s_w s') = written ops.
Proof.
  exists (srv 0), [NBytes [7; 8; 9]], [ORead 8 false; OWrite [1; 2]].
  destruct (s_run toy (setFd (srv 0) [NBytes [7; 8; 9]] []) [ORead 8 false; OWrite [1; 2]]) as [[bs s']| |] eqn:E;
    [|vm_compute in E; discriminate E|vm_compute in E; discriminate E].
  exists bs, s'. pose proof plain_delivered as P. rewrite E in P. cbn [run_out obind] in P. injection P as P1 P2 P3 P4.
  split; [apply used_new|]. split; [reflexivity|]. split; [reflexivity|]. rewrite P1, P3, P4. auto.
Qed.
Print Assumptions C59_plain_refuted.

(** Refuted: one peer cannot change what the next one gets. After a connection that
    began with a byte that starts no settings, the same right client is
    misunderstood, and answered in plaintext. *)
Theorem C59_next_refuted : exists l s1,
  (exists bs s', s_run toy (setFd (srv 0) l []) [ORead 8 false] = Ret (bs, s') /\ s1 = snd (close toy s' true true)) /\
  run_out (s_run toy (setFd cli [] []) [OWrite [1; 2]]) = Ret ([], (ENC_AES128_GCM, OK, right_wire)) /\
  run_out (s_run toy (setFd (srv 0) [NBytes right_wire] []) [ORead 2 true; OWrite [5]])
    = Ret ([1; 2], (ENC_AES128_GCM, OK, sent toy ENC_AES128_GCM 4 0 iv_a [iv_b] [5])) /\
  run_out (s_run toy (setFd s1 [NBytes right_wire] []) [ORead 2 true; OWrite [5]]) = Ret ([101; 2], (ENC_NONE, OK, [5])).
Proof.
  exists [NBytes [7; 8]], after_plain. split.
  { unfold after_plain. destruct (s_run toy (setFd (srv 0) [NBytes [7; 8]] []) [ORead 8 false]) as [[bs s']| |] eqn:E;
      [eauto|vm_compute in E; discriminate E|vm_compute in E; discriminate E]. }
  split; [exact right_client|]. split; [exact right_before|exact right_after].
Qed.
Print Assumptions C59_next_refuted.

(** A key that was given up stays so on all later connections. *)
Theorem C59_erased : forall K s s', follows K s s' -> s_type s = ENC_NONE -> s_type s' = ENC_NONE.
Proof. exact erased_forever. Qed.
Print Assumptions C59_erased.
Example C59_erased_example :
  s_type after_plain = ENC_NONE /\
  (exists s', follows toy after_plain s' /\ s' <> after_plain).
Proof.
  split; [vm_compute; reflexivity|].
  exists (snd (close toy (setFd after_plain [] []) true true)). split.
  - eapply (fol_next toy after_plain after_plain [] [] [] []); [apply fol_refl|reflexivity].
  - intros H. apply (f_equal s_closed) in H. vm_compute in H. discriminate H.
Qed.

(** Refuted: what is delivered depends on what came from the network only. *)
Theorem C59_stale_refuted : exists l a b,
  run_out (s_run toy (setFd (srv a) l []) [ORead 1 true]) <> run_out (s_run toy (setFd (srv b) l []) [ORead 1 true]).
Proof. exists [NBytes (long_type ++ [1])], 0, 255. destruct stale_byte as [-> ->]. discriminate. Qed.
Print Assumptions C59_stale_refuted.

(** Refuted: a socket that delivered bytes of an unencrypted peer can go on. *)
Theorem C59_one_byte_refuted : exists l, net_bytes l = [7; 8] /\
  run_out (s_run toy (setFd (srv 0) l []) [ORead 1 true; ORead 1 true]) = Ret ([7], (ENC_NONE, SOCKET_READ_ERROR, [])).
Proof. exists [NBytes [7; 8]]. split; [reflexivity|exact one_byte]. Qed.
Print Assumptions C59_one_byte_refuted.

(** Shutting down reports a failure to end the stream or to shut down. *)
Theorem C59_shutdown_code : forall K s ok,
  fst (shutdownWrites K s ok) = OK <-> ok = true /\ fst (finalizeWrites K s true) = OK.
Proof. exact shutdown_code. Qed.
Print Assumptions C59_shutdown_code.
Example C59_shutdown_case : fst (shutdownWrites toy after_plain true) = OK /\ fst (shutdownWrites toy after_plain false) = ERROR.
Proof. vm_compute. split; reflexivity. Qed.

(** Closing a socket whose streams ended reports exactly a failure to close and the
    errors of it that another connection would not get rid of. *)
Theorem C59_close_code : forall K s tagIO ok, s_open s = true -> s_wfin s = true -> s_rfin s = true ->
  0 <= r_err (s_r s) -> 0 <= w_err (s_w s) ->
  (fst (close K s tagIO ok) = OK <->
   ok = true /\ In (r_err (s_r s)) [OK; SOCKET_READ_ERROR; WDT_TIMEOUT; ENCRYPTION_ERROR] /\
   In (w_err (s_w s)) [OK; SOCKET_WRITE_ERROR; ENCRYPTION_ERROR]).
Proof. exact close_code. Qed.
Print Assumptions C59_close_code.
(** The peer was gone before the stream ended: an error that is not reported. *)
Example C59_close_case :
  let s := snd (expectEndOfStream toy (snd (shutdownWrites toy (setFd (srv 0) [] []) true))) in
  (s_open s, s_wfin s, s_rfin s) = (true, true, true) /\ (r_err (s_r s), w_err (s_w s)) = (ENCRYPTION_ERROR, OK) /\
  fst (close toy s true true) = OK /\ fst (close toy s true false) = ERROR.
Proof. vm_compute. repeat split. Qed.
