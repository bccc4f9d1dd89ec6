(** ClientSocket::connect (util/ClientSocket.cpp) with the time it takes and the
    descriptors it opens and closes, and the loop around ::read and ::write
    (util/WdtSocket.cpp:536-588) that closing may run into. Time is in ms; only waiting
    takes time. What the system answers is given; where a list of answers ends the
    call has not returned ([None]). Names and the peer's address are left out. *)
From Verif Require Export Model.Stats.
From Verif Require Import Model.SocketLife.

(** Options used: connect_timeout_millis, read_timeout_millis,
    abort_check_interval_millis; and the encryption type. *)
Record copts := { co_connect : Z; co_read : Z; co_abort : Z; co_type : Z }.

(** What a call of ::read or ::write did: its result, whether errno is EINTR or EAGAIN
    then, how long it took, and whether the transfer is to be aborted then. *)
Record ioans := { io_ret : Z; io_again : bool; io_dt : Z; io_abort : bool }.
(** ioWithAbortCheck, WdtSocket.cpp:545-587: the result and the time taken. [k]: bytes
    done, [t]: time since the start. *)
Fixpoint io_loop (o : copts) (timeout : Z) (full : bool) (n k t : Z) (l : list ioans) : option (Z * Z) :=
  if n <=? k then Some (k, t)
  else
    match l with
    | [] => None
    | a :: r =>
        let t1 := t + io_dt a in
        let k1 := if 0 <? io_ret a then k + io_ret a else k in
        if (io_ret a <? 0) && negb (io_again a) then Some (if 0 <? k then k else io_ret a, t1)
        else if io_ret a =? 0 then Some (k, t1)
        else if (0 <? io_ret a) && negb full then Some (k1, t1)
        else if (0 <? co_abort o) && io_abort a then Some (if 0 <? k1 then k1 else -1, t1)
        else if (0 <? timeout) && (timeout <=? t1) then Some (if 0 <? k1 then k1 else -1, t1)
        else io_loop o timeout full n k1 t1 r
    end.

(** What ::poll would say, waiting for ever: after [po_after] ms it returns [po_res],
    with errno EINTR if [po_intr]; and whether the transfer is to be aborted before. *)
Record pollans := { po_abort : bool; po_after : Z; po_res : Z; po_intr : bool }.
(** ::poll with a time-out of [t] ms; a negative one is none. *)
Definition poll (t : Z) (p : pollans) : Z * Z :=
  if (t <? 0) || (po_after p <=? t) then (po_res p, po_after p) else (0, t).

(** What happened: a descriptor was opened, closed, made non-blocking or blocking, or
    polled with a time-out. *)
Inductive cev := COpen (fd : Z) | CClose (fd : Z) | CMode (fd : Z) (blocking : bool) | CPoll (fd t : Z).

(** One address of the list of getaddrinfo and what the system does with it:
    [ad_fd]: what ::socket returns; [ad_nonblock], [ad_block]: F_SETFL works; [ad_err]:
    errno of ::connect, 0 when it returned 0; [ad_polls]: ::poll; [ad_opt], [ad_soerr]:
    getsockopt works, SO_ERROR; [ad_reads]: ::read while it is closed. *)
Record addr := {
  ad_fd : Z; ad_nonblock : bool; ad_err : Z; ad_polls : list pollans;
  ad_opt : bool; ad_soerr : Z; ad_block : bool; ad_reads : list ioans
}.
Definition EINPROGRESS : Z := 115.

(** [cs_fd]: fd_ of the socket; [cs_now]: the clock; [cs_tr]: what happened. *)
Record cstate := { cs_fd : Z; cs_now : Z; cs_tr : list cev }.
Definition c_say (s : cstate) (e : cev) : cstate :=
  {| cs_fd := cs_fd s; cs_now := cs_now s; cs_tr := cs_tr s ++ [e] |}.
Definition c_pass (s : cstate) (dt : Z) : cstate := {| cs_fd := cs_fd s; cs_now := cs_now s + dt; cs_tr := cs_tr s |}.
Definition c_fd (s : cstate) (fd : Z) : cstate := {| cs_fd := fd; cs_now := cs_now s; cs_tr := cs_tr s |}.

(** closeConnection on a connection on which nothing was read or written,
    WdtSocket.cpp:647-684: encryptor_ was not started, so no tag is written; one is read
    if the type has tags. *)
Definition closeConnection (o : copts) (reads : list ioans) (s : cstate) : option cstate :=
  if cs_fd s <? 0 then Some s
  else
    let shut s' := c_fd (c_say s' (CClose (cs_fd s))) (-1) in
    if tagLen (co_type o) =? 0 then Some (shut s)
    else match io_loop o (co_read o) true (tagLen (co_type o)) 0 0 reads with
         | Some (_, t) => Some (shut (c_pass s t))
         | None => None
         end.

(** The loop around ::poll, ClientSocket.cpp:95-134: [Ready], or the code to return
    with. [t]: timeElapsed so far. *)
Inductive waited := Ready | Gives (code : Z).
Fixpoint wait_loop (o : copts) (t : Z) (l : list pollans) (s : cstate) : option (waited * cstate) :=
  match l with
  | [] => None
  | p :: r =>
      if po_abort p then Some (Gives ABORT, s)
      else if co_connect o <=? t then Some (Gives CONN_ERROR_RETRYABLE, s)
      else
        let timeout := Z.min (co_connect o - t) (co_abort o) in
        let '(res, dt) := poll timeout p in
        let s1 := c_pass (c_say s (CPoll (cs_fd s) timeout)) dt in
        if 0 <? res then Some (Ready, s1)
        else if (res =? 0) || po_intr p then wait_loop o (t + dt) r s1
        else Some (Gives CONN_ERROR, s1)
  end.

(** One turn of the loop over the addresses, ClientSocket.cpp:58-165: [Next] after
    [continue], [Stop] after [break], [Leave] after [return]. *)
Inductive turned := Next (s : cstate) | Stop (s : cstate) | Leave (code : Z) (s : cstate).
Definition try_addr (o : copts) (a : addr) (s : cstate) : option turned :=
  let give s' := match closeConnection o (ad_reads a) s' with Some s2 => Some (Next s2) | None => None end in
  let leave code s' := match closeConnection o (ad_reads a) s' with Some s2 => Some (Leave code s2) | None => None end in
  let finish s' :=
    if ad_block a then Some (Stop (c_say s' (CMode (ad_fd a) true))) else give s' in
  if ad_fd a =? -1 then Some (Next s)
  else
    let s1 := c_fd (c_say s (COpen (ad_fd a))) (ad_fd a) in
    if negb (ad_nonblock a) then give s1
    else
      let s2 := c_say s1 (CMode (ad_fd a) false) in
      if ad_err a =? 0 then finish s2
      else if negb (ad_err a =? EINPROGRESS) then give s2
      else
        match wait_loop o 0 (ad_polls a) s2 with
        | None => None
        | Some (Gives code, s3) => leave code s3
        | Some (Ready, s3) =>
            if negb (ad_opt a) then give s3
            else if negb (ad_soerr a =? 0) then give s3
            else finish s3
        end.
Fixpoint try_addrs (o : copts) (l : list addr) (s : cstate) : option (Z * cstate) :=
  match l with
  | [] => Some (if cs_fd s <? 0 then CONN_ERROR_RETRYABLE else OK, s)
  | a :: r =>
      match try_addr o a s with
      | None => None
      | Some (Next s') => try_addrs o r s'
      | Some (Stop s') => Some (if cs_fd s' <? 0 then CONN_ERROR_RETRYABLE else OK, s')
      | Some (Leave code s') => Some (code, s')
      end
  end.
(** ClientSocket::connect, ClientSocket.cpp:39-176. [None] as a list: getaddrinfo
    failed. *)
Definition connect (o : copts) (l : option (list addr)) (s : cstate) : outcome (option (Z * cstate)) :=
  if 0 <=? cs_fd s then Crash
  else Ret (match l with None => Some (CONN_ERROR, s) | Some l => try_addrs o l s end).
