(** Connections on which a socket does what one would not expect. *)
From Verif Require Import Model.Uri Proofs.SocketIvFacts Proofs.SocketLifeFacts.
From Verif Require Export Spec.SocketLifeSpec.
From Coq Require Import Lia.

Definition srv (last : Z) : wdts := newSocket ENC_AES128_GCM 0 true 4 last [iv_a; iv_b].
Definition cli : wdts := newSocket ENC_AES128_GCM 0 false 4 0 [iv_a; iv_b].
Definition run_out (x : outcome (list Z * wdts)) : outcome (list Z * (Z * Z * list Z)) :=
  obind x (fun y => let '(bs, s) := y in Ret (bs, (s_type s, r_err (s_r s), w_out (s_w s)))).

(** One byte that starts no settings is enough. *)
Lemma plain_delivered : run_out (s_run toy (setFd (srv 0) [NBytes [7; 8; 9]] []) [ORead 8 false; OWrite [1; 2]])
  = Ret ([7; 8; 9], (ENC_NONE, OK, [1; 2])).
Proof. vm_compute. reflexivity. Qed.
Definition after_plain : wdts :=
  match s_run toy (setFd (srv 0) [NBytes [7; 8]] []) [ORead 8 false] with Ret (_, s) => snd (close toy s true true) | _ => srv 0 end.
Lemma after_plain_used : used toy 1 after_plain.
Proof.
  assert (E : exists bs s', s_run toy (setFd (srv 0) [NBytes [7; 8]] []) [ORead 8 false] = Ret (bs, s') /\ after_plain = snd (close toy s' true true)).
  { unfold after_plain. destruct (s_run toy (setFd (srv 0) [NBytes [7; 8]] []) [ORead 8 false]) as [[bs s']| |] eqn:E; [eauto|vm_compute in E; discriminate E|vm_compute in E; discriminate E]. }
  destruct E as (bs & s' & E & ->). change 1 with (0 + 1). eapply used_again; [apply used_new|exact E].
Qed.
(** What a right client sends for [1; 2]. *)
Definition right_wire : list Z := Eval vm_compute in sent toy ENC_AES128_GCM 4 0 iv_a [iv_b] [1; 2].
Lemma right_client : run_out (s_run toy (setFd cli [] []) [OWrite [1; 2]]) = Ret ([], (ENC_AES128_GCM, OK, right_wire)).
Proof. vm_compute. reflexivity. Qed.
Lemma right_before : run_out (s_run toy (setFd (srv 0) [NBytes right_wire] []) [ORead 2 true; OWrite [5]])
  = Ret ([1; 2], (ENC_AES128_GCM, OK, sent toy ENC_AES128_GCM 4 0 iv_a [iv_b] [5])).
Proof. vm_compute. reflexivity. Qed.
Lemma right_after : run_out (s_run toy (setFd after_plain [NBytes right_wire] []) [ORead 2 true; OWrite [5]])
  = Ret ([101; 2], (ENC_NONE, OK, [5])).
Proof. vm_compute. reflexivity. Qed.
(** A type in two bytes moves the last byte of the settings into memory that was not
    filled. *)
Definition long_type : list Z := 101 :: [130; 0; 16] ++ iv_a ++ [4; 0; 0].
Lemma stale_byte : run_out (s_run toy (setFd (srv 0) [NBytes (long_type ++ [1])] []) [ORead 1 true]) =
  Ret ([Z.lxor 1 (ks toy iv_a 0)], (ENC_AES128_GCM, OK, [])) /\
  run_out (s_run toy (setFd (srv 255) [NBytes (long_type ++ [1])] []) [ORead 1 true]) = Ret ([], (ENC_AES128_GCM, PROTOCOL_ERROR, [])).
Proof. split; vm_compute; reflexivity. Qed.
(** With a request for one byte the byte is delivered and the socket is finished. *)
Lemma one_byte : run_out (s_run toy (setFd (srv 0) [NBytes [7; 8]] []) [ORead 1 true; ORead 1 true])
  = Ret ([7], (ENC_NONE, SOCKET_READ_ERROR, [])).
Proof. vm_compute. reflexivity. Qed.
Lemma write_after_end : s_run toy (setFd cli [] []) [OWrite [1]; OShutdown true; OWrite [2]] = Crash.
Proof. vm_compute. reflexivity. Qed.
