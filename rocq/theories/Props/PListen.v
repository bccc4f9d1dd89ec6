(** C61: a server socket: what it listens on, whom it accepts, and what becomes of the
    descriptors. *)
From Verif Require Import Model.Bytes Model.Connect Model.Listen Spec.ListenSpec.
From Verif Require Import Proofs.ListenFacts Proofs.ListenFairFacts Proofs.ListenWitness.

(** Whatever a receiver thread does with its socket, in whatever order, exactly the
    listening descriptors and the connection are in use, every other one was closed,
    once; all listening descriptors are bound to the port of the socket; the connection
    was accepted from one of them. Closing all leaves nothing in use. *)
Theorem C61_descriptors : forall o port l s,
  0 <= port -> Forall op_sane l -> l_run o (l_new port) l = Ret (Some s) ->
  accounted s /\ accounted (closeAllNoCheck s) /\ forall fd, expected (closeAllNoCheck s) fd = None.
Proof. exact life_accounted. Qed.
Print Assumptions C61_descriptors.
Example C61_descriptors_case : Forall op_sane life /\ l_run (lo false) (l_new 22356) life = Ret (Some
  {| l_port := 40001; l_fds := [5; 6]; l_conn := 9; l_idx := 0; l_now := 90;
     l_tr := [LOpen 5; LClose 5; LOpen 5; LBound 5 40001; LOpen 6; LBound 6 40001;
              LAccept 6 8; LClose 8; LAccept 5 8; LClose 8; LAccept 5 9] |}).
Proof. exact (conj life_sane life_run). Qed.

(** Which addresses it listens on, and on which port. *)
Theorem C61_addresses : forall o l more s code s',
  l_fds s = [] -> 0 <= l_port s -> looks_sane (Some l :: more) ->
  listen o (Some l :: more) s = Ret (Some (code, s')) ->
  let want := listens (if lo_static o then l_port s else 0) l more in
  l_fds s' = snd want /\ l_port s' = (if l_fds s' then l_port s else fst want)
  /\ code = (if l_fds s' then CONN_ERROR_RETRYABLE else OK).
Proof. exact listen_addresses. Qed.
Print Assumptions C61_addresses.
Example C61_addresses_case :
  looks_sane looks /\ listen (lo false) looks (l_new 22356) = Ret (Some (OK, listening)) /\ l_fds listening = [5; 6].
Proof. exact (conj looks_ok (conj listening_run eq_refl)). Qed.

(** An accept on a socket that listens is over when its time is over; if it says OK the
    connection is from the first ready descriptor in the ring, from the one used last
    on or from the next; otherwise nothing was accepted. *)
Theorem C61_accept : forall o looks timeout tryCur polls acc s code s',
  l_fds s <> [] -> 0 <= l_idx s ->
  acceptNextConnection o looks timeout tryCur polls acc s = Ret (Some (code, s')) ->
  0 < timeout /\ l_fds s' = l_fds s /\ l_port s' = l_port s /\ 0 <= l_idx s' /\
  (Forall (fun p => 0 <= po_after (lp_poll p)) polls -> l_now s <= l_now s' <= l_now s + timeout) /\
  (if code =? OK then
     exists p, In p polls /\ first_ready (zlen (l_fds s)) (acc_start (zlen (l_fds s)) (l_idx s) tryCur) (lp_ready p) (l_idx s')
       /\ l_idx s' < zlen (l_fds s)
       /\ 0 <= acc /\ l_conn s' = acc /\ l_tr s' = l_tr s ++ [LAccept (nth (Z.to_nat (l_idx s')) (l_fds s) (-1)) acc]
   else l_conn s' = l_conn s /\ l_tr s' = l_tr s).
Proof. exact accept_sound. Qed.
Print Assumptions C61_accept.
Example C61_accept_case :
  acceptNextConnection (lo false) [] 1000 false [both_ready] 8 listening = Ret (Some (OK,
    {| l_port := 40001; l_fds := [5; 6]; l_conn := 8; l_idx := 1; l_now := 30; l_tr := l_tr listening ++ [LAccept 6 8] |})).
Proof. vm_compute. reflexivity. Qed.

(** A connection that arrives in time is found when it arrives, however the waiting is
    cut into pieces. *)
Theorem C61_found : forall o timeout d ready n t s,
  0 <= t <= d -> t < timeout ->
  Z.min d timeout - t <= Z.of_nat n * (if 0 <? lo_abort o then lo_abort o else timeout) ->
  exists s', acc_wait o timeout t (arrives o timeout d ready (S n) t) s
    = Some (if d <=? timeout then inr ready else inl CONN_ERROR, s')
    /\ l_now s' = l_now s + (Z.min d timeout - t).
Proof. exact wait_arrives. Qed.
Print Assumptions C61_found.
Example C61_found_case : exists s',
  acc_wait (lo false) 1000 0 (arrives (lo false) 1000 450 [true] 4 0) listening = Some (inr [true], s') /\ l_now s' = 450.
Proof. eexists. split; [vm_compute; reflexivity|reflexivity]. Qed.

(** No address is starved: one that is ready whenever a connection is looked for is
    served after at most as many accepts as there are addresses. *)
Theorem C61_fair : forall o j l s s',
  l_fds s <> [] -> 0 <= l_idx s -> 0 <= j < zlen (l_fds s) ->
  (forall c p, In c l -> In p (k_polls c) -> nth (Z.to_nat j) (lp_ready p) false = true) ->
  zlen (l_fds s) <= zlen l -> accepted o s l = Some s' ->
  exists new c, l_tr s' = l_tr s ++ new /\ In c l /\ In (LAccept (nth (Z.to_nat j) (l_fds s) (-1)) (k_acc c)) new.
Proof. exact fair. Qed.
Print Assumptions C61_fair.
Example C61_fair_case : option_map l_tr (accepted (lo false) listening calls)
  = Some (l_tr listening ++ [LAccept 6 8; LClose 8; LAccept 5 9]).
Proof. exact calls_run. Qed.

(** The index of the descriptor to look at is never outside; the checks hold if names
    tell the port asked for and there is time to wait. *)
Theorem C61_defined : forall o port l, 0 <= port -> Forall op_sane l -> l_run o (l_new port) l <> Undef.
Proof. exact life_defined. Qed.
Print Assumptions C61_defined.
Theorem C61_checks : forall o looks timeout tryCur polls acc port l s,
  0 <= port -> Forall op_sane l -> l_run o (l_new port) l = Ret (Some s) ->
  looks_sane looks -> honest o s looks -> 0 < timeout ->
  acceptNextConnection o looks timeout tryCur polls acc s <> Crash.
Proof. exact life_checks. Qed.
Print Assumptions C61_checks.
Example C61_checks_case : looks_sane looks /\ honest (lo false) (l_new 22356) looks.
Proof. exact (conj looks_ok looks_honest). Qed.

(** There is time to wait if the peer's time-outs are not near the limit of int; a peer
    that says they are makes the receiver fail the check. *)
Theorem C61_timeout : forall window rd wr,
  0 < window -> rd + 1000 < 2 ^ 31 -> wr + 1000 < 2 ^ 31 -> 0 < next_timeout window rd wr.
Proof. exact next_timeout_ok. Qed.
Print Assumptions C61_timeout.
Theorem C61_timeout_refuted : exists rd wr, in_i32 rd /\ in_i32 wr /\ 0 < rd /\
  forall o looks tryCur polls acc s, l_fds s <> [] ->
    acceptNextConnection o looks (next_timeout 120000 rd wr) tryCur polls acc s = Crash.
Proof. exact peer_timeout. Qed.
Print Assumptions C61_timeout_refuted.
