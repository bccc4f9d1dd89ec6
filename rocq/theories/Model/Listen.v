(** ServerSocket (util/ServerSocket.cpp): listening, accepting and closing, and how a
    receiver thread uses them (ReceiverThread.cpp:137-232). What the system answers is
    given; where a list of answers ends the call has not returned ([None]). Time is in
    ms; only waiting takes time. Names and socket options are left out. *)
From Verif Require Export Model.Stats.
From Verif Require Import Model.Bytes Model.Connect.

(** An address of a list of getaddrinfo and what the system does with it. [in_name]: the
    port getnameinfo tells, if it works; [in_fd]: what ::socket returns; [in_bind],
    [in_listen]: ::bind and ::listen work; [in_sel]: the port ::bind selects if the
    address has none; [in_ask]: getsockname works. *)
Record info := {
  in_fam : Z; in_name : option Z; in_fd : Z; in_bind : bool; in_listen : bool; in_sel : Z; in_ask : bool
}.

(** What happened: a descriptor was opened, bound to a port, closed; a connection was
    accepted from a listening descriptor. *)
Inductive lev := LOpen (fd : Z) | LBound (fd port : Z) | LClose (fd : Z) | LAccept (from fd : Z).

(** [l_port]: port_ of the socket; [l_fds]: listeningFds_; [l_conn]: fd_ of the socket;
    [l_idx]: lastCheckedPollIndex_; the clock and what happened. *)
Record lst := { l_port : Z; l_fds : list Z; l_conn : Z; l_idx : Z; l_now : Z; l_tr : list lev }.
Definition l_say (s : lst) (e : lev) : lst :=
  {| l_port := l_port s; l_fds := l_fds s; l_conn := l_conn s; l_idx := l_idx s; l_now := l_now s; l_tr := l_tr s ++ [e] |}.
Definition l_setPort (s : lst) (p : Z) : lst :=
  {| l_port := p; l_fds := l_fds s; l_conn := l_conn s; l_idx := l_idx s; l_now := l_now s; l_tr := l_tr s |}.
Definition l_setFds (s : lst) (l : list Z) : lst :=
  {| l_port := l_port s; l_fds := l; l_conn := l_conn s; l_idx := l_idx s; l_now := l_now s; l_tr := l_tr s |}.
Definition l_setConn (s : lst) (fd : Z) : lst :=
  {| l_port := l_port s; l_fds := l_fds s; l_conn := fd; l_idx := l_idx s; l_now := l_now s; l_tr := l_tr s |}.
Definition l_setIdx (s : lst) (i : Z) : lst :=
  {| l_port := l_port s; l_fds := l_fds s; l_conn := l_conn s; l_idx := i; l_now := l_now s; l_tr := l_tr s |}.
Definition l_pass (s : lst) (dt : Z) : lst :=
  {| l_port := l_port s; l_fds := l_fds s; l_conn := l_conn s; l_idx := l_idx s; l_now := l_now s + dt; l_tr := l_tr s |}.

(** Options used: static_ports, abort_check_interval_millis. *)
Record lopts := { lo_static : bool; lo_abort : Z }.

(** A new server socket, ServerSocket.cpp:18-28, ServerSocket.h:138-141. *)
Definition l_new (port : Z) : lst :=
  {| l_port := port; l_fds := []; l_conn := -1; l_idx := 0; l_now := 0; l_tr := [] |}.

(** listenInternal, ServerSocket.cpp:55-91. *)
Definition listenInternal (i : info) (port : Z) (s : lst) : Z * lst :=
  if in_fd i =? -1 then (-1, s)
  else
    let s1 := l_say s (LOpen (in_fd i)) in
    if negb (in_bind i) then (-1, l_say s1 (LClose (in_fd i)))
    else
      let s2 := l_say s1 (LBound (in_fd i) (if port =? 0 then in_sel i else port)) in
      if negb (in_listen i) then (-1, l_say s2 (LClose (in_fd i))) else (in_fd i, s2).

(** The loop of listen, ServerSocket.cpp:158-204, with getSelectedPortAndNewAddress,
    93-119. [more]: what getaddrinfo answers from now on; [bound]:
    addressTypeAlreadyBound. *)
Fixpoint scan (more : list (option (list info))) : Z -> Z -> list info -> lst -> outcome (option lst) :=
  fix go (port bound : Z) (l : list info) (s : lst) {struct l} : outcome (option lst) :=
    match l with
    | [] => Ret (Some s)
    | i :: r =>
        if in_fam i =? bound then go port bound r s
        else if match in_name i with Some p => negb (p =? port) | None => false end then Crash
        else
          let '(fd, s1) := listenInternal i port s in
          if fd <? 0 then go port bound r s1
          else if port =? 0 then
            if negb (in_ask i) then go port bound r (l_say s1 (LClose fd))
            else
              match more with
              | [] => Ret None
              | None :: more' | Some [] :: more' => scan more' port bound r (l_say s1 (LClose fd))
              | Some l' :: more' =>
                  scan more' (in_sel i) (in_fam i) l' (l_setFds (l_setPort s1 (in_sel i)) (l_fds s1 ++ [fd]))
              end
          else go port bound r (l_setFds s1 (l_fds s1 ++ [fd]))
    end.
Definition AF_UNSPEC : Z := 0.
(** ServerSocket::listen, ServerSocket.cpp:121-211. [looks]: what getaddrinfo answers. *)
Definition listen (o : lopts) (looks : list (option (list info))) (s : lst) : outcome (option (Z * lst)) :=
  match l_fds s with
  | _ :: _ => Ret (Some (OK, s))
  | [] =>
      match looks with
      | [] => Ret None
      | None :: _ => Ret (Some (CONN_ERROR, s))
      | Some l :: more =>
          obind (scan more (if lo_static o then l_port s else 0) AF_UNSPEC l s) (fun r =>
          match r with
          | None => Ret None
          | Some s' => Ret (Some (match l_fds s' with [] => CONN_ERROR_RETRYABLE | _ => OK end, s'))
          end)
      end
  end.

(** What ::poll says on the listening descriptors ([lp_ready]: which have POLLIN). *)
Record lpoll := { lp_poll : pollans; lp_ready : list bool }.
(** The loop around ::poll, ServerSocket.cpp:229-268: the descriptors that are ready, or
    the code to return with. [t]: timeElapsed. *)
Fixpoint acc_wait (o : lopts) (timeout t : Z) (l : list lpoll) (s : lst) : option ((Z + list bool) * lst) :=
  match l with
  | [] => None
  | p :: r =>
      if timeout <=? t then Some (inl CONN_ERROR, s)
      else if (0 <? lo_abort o) && po_abort (lp_poll p) then Some (inl ABORT, s)
      else
        let pollTimeout := if 0 <? lo_abort o then Z.min (timeout - t) (lo_abort o) else timeout - t in
        let '(res, dt) := poll pollTimeout (lp_poll p) in
        let s1 := l_pass s dt in
        if 0 <? res then Some (inr (lp_ready p), s1)
        else if po_intr (lp_poll p) || (res =? 0) then acc_wait o timeout (t + dt) r s1
        else Some (inl CONN_ERROR, s1)
  end.

(** Where the search for a ready descriptor starts, ServerSocket.cpp:270-276. *)
Definition acc_start (n idx : Z) (tryCurAddressFirst : bool) : Z :=
  if n <=? idx then 0 else if negb tryCurAddressFirst then (idx + 1) mod n else idx.
(** The search, ServerSocket.cpp:278-299: whether one was found, and the index then. An
    index outside pollFds is undefined behaviour. *)
Fixpoint acc_pick (count : nat) (n idx : Z) (ready : list bool) : outcome (bool * Z) :=
  match count with
  | O => Ret (false, idx)
  | S c =>
      if (idx <? 0) || (n <=? idx) then Undef
      else if nth (Z.to_nat idx) ready false then Ret (true, idx)
      else acc_pick c n ((idx + 1) mod n) ready
  end.
(** acceptNextConnection, ServerSocket.cpp:213-302. [acc]: what ::accept returns. *)
Definition acceptNextConnection (o : lopts) (looks : list (option (list info))) (timeout : Z) (tryCur : bool)
    (polls : list lpoll) (acc : Z) (s : lst) : outcome (option (Z * lst)) :=
  obind (listen o looks s) (fun r =>
  match r with
  | None => Ret None
  | Some (code, s1) =>
      if negb (code =? OK) then Ret (Some (code, s1))
      else
        match l_fds s1 with
        | [] => Crash
        | _ :: _ =>
            if timeout <=? 0 then Crash
            else
              match acc_wait o timeout 0 polls s1 with
              | None => Ret None
              | Some (inl code, s2) => Ret (Some (code, s2))
              | Some (inr ready, s2) =>
                  let n := zlen (l_fds s2) in
                  obind (acc_pick (length (l_fds s2)) n (acc_start n (l_idx s2) tryCur) ready) (fun '(found, idx) =>
                  let s3 := l_setIdx s2 idx in
                  if negb found then Ret (Some (CONN_ERROR, s3))
                  else if acc <? 0 then Ret (Some (CONN_ERROR, s3))
                  else Ret (Some (OK, l_setConn (l_say s3 (LAccept (nth (Z.to_nat idx) (l_fds s3) (-1)) acc)) acc)))
              end
        end
  end).

(** closeNoCheck, WdtSocket.cpp:651-684 without tags. *)
Definition closeNoCheck (s : lst) : lst :=
  if l_conn s <? 0 then s else l_setConn (l_say s (LClose (l_conn s))) (-1).
(** closeAllNoCheck, ServerSocket.cpp:30-49, and the destructor, 51-53. *)
Definition close_fds (l : list Z) (s : lst) : lst :=
  fold_left (fun s fd => if 0 <=? fd then l_say s (LClose fd) else s) l s.
Definition closeAllNoCheck (s : lst) : lst :=
  let s1 := closeNoCheck s in l_setFds (close_fds (l_fds s1) s1) [].

(** What a receiver thread does with its socket: it listens (ReceiverThread.cpp:108-135),
    closes the connection it has and accepts one (137-232), closes the connection, or all. *)
Inductive lop :=
| LListen (looks : list (option (list info)))
| LNext (looks : list (option (list info))) (timeout : Z) (tryCur : bool) (polls : list lpoll) (acc : Z)
| LHang
| LShut.
Definition l_step (o : lopts) (s : lst) (x : lop) : outcome (option lst) :=
  let state r := obind r (fun r => Ret (match r with Some (_, s') => Some s' | None => None end)) in
  match x with
  | LListen looks => state (listen o looks s)
  | LNext looks timeout tryCur polls acc =>
      state (acceptNextConnection o looks timeout tryCur polls acc (closeNoCheck s))
  | LHang => Ret (Some (closeNoCheck s))
  | LShut => Ret (Some (closeAllNoCheck s))
  end.
Fixpoint l_run (o : lopts) (s : lst) (l : list lop) : outcome (option lst) :=
  match l with
  | [] => Ret (Some s)
  | x :: r => obind (l_step o s x) (fun r' => match r' with Some s' => l_run o s' r | None => Ret None end)
  end.

(** The time acceptWithTimeout waits, ReceiverThread.cpp:207-212: the sum is of 64 bits,
    [timeout] of 32. [rd], [wr]: senderReadTimeout_, senderWriteTimeout_. *)
Definition next_timeout (window rd wr : Z) : Z := if 0 <? rd then to_i32 (Z.max rd wr + 1000) else window.
