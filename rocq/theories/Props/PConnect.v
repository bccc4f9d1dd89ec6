(** C60: connecting: which address is used, what becomes of the descriptors, and how
    long it takes. *)
From Verif Require Import Model.Connect Model.Uri Spec.ConnectSpec Proofs.ConnectFacts Proofs.ConnectWitness.

(** The first address that is not passed over decides; the descriptors opened on the
    way are closed, once each, and one is held if and only if the answer is OK. That
    one blocks. *)
Theorem C60_decided : forall o l s code s',
  cs_fd s = -1 -> cs_tr s = [] -> Forall (fun a => -1 <= ad_fd a) l ->
  connect o (Some l) s = Ret (Some (code, s')) ->
  decided o l code (cs_fd s')
  /\ replay None (cs_tr s') = Some (if code =? OK then Some (cs_fd s', true) else None).
Proof. exact connect_sound. Qed.
Print Assumptions C60_decided.
Example C60_decided_case :
  connect (opts ENC_NONE 200) (Some some_fail) new_socket
  = Ret (Some (OK, {| cs_fd := 8; cs_now := 480;
       cs_tr := [COpen 7; CMode 7 false; CPoll 7 200; CClose 7;
                 COpen 8; CMode 8 false; CPoll 8 200; CPoll 8 200; CPoll 8 200; CMode 8 true] |})).
Proof. exact some_fail_run. Qed.

(** Waiting on all addresses takes at most the connect time-out each; with tags, also
    the read time-out and one read ([d] at most). No single wait is longer than the
    interval between checks for aborts, and none has a time-out of 0 or none. *)
Theorem C60_time : forall o d l s code s',
  0 < co_abort o -> 0 < co_read o -> 0 <= d -> cs_tr s = [] -> Forall (sane d) l ->
  connect o (Some l) s = Ret (Some (code, s')) ->
  cs_now s' - cs_now s <= Z.of_nat (length l)
    * (Z.max 0 (co_connect o) + (if co_type o =? ENC_AES128_GCM then co_read o + d else 0))
  /\ polls_within (Z.min (co_connect o) (co_abort o)) (cs_tr s').
Proof. exact connect_time. Qed.
Print Assumptions C60_time.
Example C60_time_case : Forall (sane 0) some_fail.
Proof. exact some_fail_sane. Qed.

(** A connection that comes up after [d] ms, in time, is found when it is up, however
    the waiting is cut into pieces; one that would come later is given up when the
    time-out is over, not before. *)
Theorem C60_found : forall o d n t s,
  0 < co_abort o -> 0 <= t <= d -> t < co_connect o ->
  Z.min d (co_connect o) - t <= Z.of_nat n * co_abort o ->
  exists s', wait_loop o t (comes_up o d (S n) t) s
    = Some (if d <=? co_connect o then Ready else Gives CONN_ERROR_RETRYABLE, s')
    /\ cs_now s' = cs_now s + (Z.min d (co_connect o) - t).
Proof. intros o d n. exact (wait_comes_up o d n). Qed.
Print Assumptions C60_found.
Example C60_found_case :
  Z.min 450 (co_connect (opts ENC_NONE 200)) - 0 <= Z.of_nat 3 * co_abort (opts ENC_NONE 200)
  /\ wait_loop (opts ENC_NONE 200) 0 (comes_up (opts ENC_NONE 200) 450 4 0) new_socket
     = Some (Ready, {| cs_fd := -1; cs_now := 450; cs_tr := [CPoll (-1) 200; CPoll (-1) 200; CPoll (-1) 200] |}).
Proof. split; [discriminate|vm_compute; reflexivity]. Qed.

(** Without tags it returns, if the system goes on answering and no wait is shorter than
    1 ms. *)
Theorem C60_returns : forall o l s,
  0 < co_abort o -> co_type o <> ENC_AES128_GCM -> cs_fd s < 0 -> Forall (lively o) l ->
  exists r, connect o (Some l) s = Ret (Some r).
Proof. exact connect_returns. Qed.
Print Assumptions C60_returns.
Example C60_returns_case :
  Forall (lively {| co_connect := 2; co_read := 5; co_abort := 1; co_type := ENC_NONE |})
    [refused; no_family; at_once; slow; silent []] /\ cs_fd new_socket < 0.
Proof. exact lively_case. Qed.

(** It is not so that an address that can be reached is reached: one before it that does
    not answer in time ends the attempt. *)
Theorem C60_reachable_refuted : exists o l code s',
  0 < co_abort o /\ connect o (Some l) new_socket = Ret (Some (code, s'))
  /\ code <> OK /\ (exists a, In a l /\ up o a) /\ Forall (sane 1) l.
Proof. exact rest_untried. Qed.
Print Assumptions C60_reachable_refuted.

(** Nor that the connect time-outs bound the time: with tags, not by the read time-out
    either if there is none; and not with a negative interval. *)
Theorem C60_tag_refuted : exists o l code s',
  0 < co_abort o /\ connect o (Some l) new_socket = Ret (Some (code, s'))
  /\ cs_now s' - cs_now new_socket > Z.of_nat (length l) * co_connect o.
Proof. exact tag_awaited. Qed.
Print Assumptions C60_tag_refuted.
Theorem C60_stuck : forall o s n,
  co_read o <= 0 -> co_abort o <= 0 -> co_type o = ENC_AES128_GCM -> 0 <= cs_fd s ->
  closeConnection o (repeat nothing_yet n) s = None.
Proof. exact close_stuck. Qed.
Print Assumptions C60_stuck.
Example C60_stuck_case : closeConnection no_timeouts (repeat nothing_yet 50) (c_fd new_socket 4) = None.
Proof. vm_compute. reflexivity. Qed.
Theorem C60_interval_refuted : exists o l code s',
  co_type o = ENC_NONE /\ connect o (Some l) new_socket = Ret (Some (code, s'))
  /\ cs_now s' - cs_now new_socket > Z.of_nat (length l) * co_connect o.
Proof. exact interval_negative. Qed.
Print Assumptions C60_interval_refuted.

(** A socket that still holds a connection is not connected again. *)
Theorem C60_once : forall o l s, 0 <= cs_fd s <-> connect o l s = Crash.
Proof. exact connect_once. Qed.
Print Assumptions C60_once.

(** An unknown name is not retried. *)
Theorem C60_unknown : forall o s, cs_fd s < 0 -> connect o None s = Ret (Some (CONN_ERROR, s)).
Proof. exact connect_unknown. Qed.
Print Assumptions C60_unknown.
Example C60_unknown_case : cs_fd new_socket < 0 /\ CONN_ERROR <> CONN_ERROR_RETRYABLE.
Proof. split; [reflexivity|discriminate]. Qed.

(** Reading and writing: whatever ends the loop, the bytes moved so far are reported, and
    a result that is not positive means that there were none. *)
Theorem C60_io : forall o timeout full n l k t, io_loop o timeout full n 0 0 l = Some (k, t) ->
  exists used rest, l = used ++ rest /\ t = io_took used /\
    (0 < io_bytes used -> k = io_bytes used) /\ (io_bytes used = 0 -> k <= 0) /\
    (io_bytes used < n -> exists u a, used = u ++ [a] /\ io_gives_up o timeout t full a).
Proof. exact io_result. Qed.
Print Assumptions C60_io.
(** Six bytes, nothing for now, then an error: six is the answer. *)
Example C60_io_case : io_loop (opts ENC_NONE 200) 1000 true 16 0 0
    [{| io_ret := 6; io_again := false; io_dt := 5; io_abort := false |};
     {| io_ret := -1; io_again := true; io_dt := 200; io_abort := false |};
     {| io_ret := -1; io_again := false; io_dt := 1; io_abort := false |}] = Some (6, 206).
Proof. vm_compute. reflexivity. Qed.
