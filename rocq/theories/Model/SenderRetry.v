(** One sender thread: when it connects again, when it gives up, and how long it
    waits for the receiver's answer. *)
From Verif Require Export Model.History.

(** ** Connecting *)

(** What one connectToReceiver call meets: the socket creator gives no socket,
    or the results of socket->connect() with the thread's abort code looked up
    after each failed attempt. *)
Inductive dial := NoSocket | Dial (l : list (Z * Z)).

(** The loop of SenderThread::connectToReceiver, SenderThread.cpp:75-99: error
    code and number of attempts; [n] attempts are left. [None]: the list of
    results is too short. The sleeps between attempts take no step. *)
Fixpoint dial_loop (n : nat) (l : list (Z * Z)) (attempts : Z) : option (Z * Z) :=
  match n with
  | O => Some (CONN_ERROR, attempts)
  | S n' =>
      match l with
      | [] => None
      | (e, abort) :: r =>
          if e =? OK then Some (OK, attempts + 1)
          else if e =? CONN_ERROR then Some (CONN_ERROR, attempts + 1)
          else if negb (abort =? OK) then Some (ABORT, attempts + 1)
          else dial_loop n' r (attempts + 1)
      end
  end.

(** SenderThread::connectToReceiver, SenderThread.cpp:35-106. *)
Definition connectToReceiver (max_retries : Z) (d : dial) : option (Z * Z) :=
  match d with
  | NoSocket => Some (ERROR, 0)
  | Dial l => dial_loop (Z.to_nat (if max_retries <? 1 then 1 else max_retries)) l 0
  end.

(** ** The thread *)

(** enum SenderState, SenderThread.h:23-39. [SSending] is the part of
    SEND_BLOCKS after a block was taken from the queue. *)
Inductive sstate :=
| SConnect | SLocal | SSettings | SBlocks | SSending | SSize | SDone | SCheckAbort
| SChunks | SRecvCmd | SProcDone | SProcWait | SProcErr | SProcAbort | SProcVersion | SEnd.

(** Options used. *)
Record sopts := { so_retries : Z;    (* max_retries *)
                  so_transfer : Z    (* max_transfer_retries *) }.

(** The thread's fields (SenderThread.h:290-312). [sr_w] holds the blocks,
    histories and statistics of all threads; this thread is number [sr_i].
    [sr_conns], [sr_dials] count the calls of connectToReceiver and of
    socket->connect(). [sr_resolved]: the version mismatch of this transfer was
    resolved (V_MISMATCH_RESOLVED). *)
Record sthread := {
  sr_w : sender;
  sr_i : nat;
  sr_state : sstate;
  sr_ctr : Z;            (* numReconnectWithoutProgress_ *)
  sr_socket : bool;      (* socket_ is set *)
  sr_resolved : bool;
  sr_conns : Z;
  sr_dials : Z
}.
Definition sthread_new (w : sender) (i : nat) : sthread :=
  {| sr_w := w; sr_i := i; sr_state := SConnect; sr_ctr := 0; sr_socket := false;
     sr_resolved := false; sr_conns := 0; sr_dials := 0 |}.

(** What a state function met. *)
Inductive recv_answer :=   (* readReceiverCmd *)
| RcFail (e : Z)           (* readNextReceiverCmd failed with e *)
| RcErr | RcWait | RcDone | RcAbort
| RcSpurious               (* a valid unexpected local checkpoint *)
| RcSpuriousShort | RcSpuriousBad | RcHeartBeat | RcUnexpected.
Inductive chunk_answer :=  (* readFileChunks *)
| ChFail (e : Z) | ChAbort | ChWait | ChSpurious | ChSpuriousShort | ChBad | ChDone.
Inductive local_answer := LShort | LBad | LGood (c : checkpoint).
Inductive err_answer := ErShort | ErBad | ErGood.

Inductive sin :=
| IAbort (mismatch : bool)                       (* start's loop finds an abort code *)
| IConnect (nonRetryable : Z) (d : dial) (mismatch : bool)
| ILocal (r : local_answer)
| ISettings (written chunks : bool)
| ISizeFirst                                     (* discovery finished, size not sent *)
| ITake (j : nat) (opened : bool)                (* getNextSource takes a block *)
| INoSource                                      (* getNextSource: nothing left *)
| ISend (r : sent)
| ISize (written : bool)
| IDone (written : bool)
| ICheck (abortCmd : bool)
| IChunks (r : chunk_answer)
| IRecv (r : recv_answer)
| IProcDone (e : Z)                              (* expectEndOfStream *)
| IProcWait
| IProcErr (r : err_answer)
| IProcAbort (mismatch : bool)
| IVersion (resolved : bool)
| IOther (a : sact).                             (* the other threads *)

(** Actions of the other threads: anything but this thread's own taking,
    sending, confirming and error codes. Global checkpoints for this thread
    may come at any time. *)
Definition foreign (i : nat) (a : sact) : bool :=
  match a with
  | ATake k _ _ | ASend k _ | ALocal k _ | AAckAll k | AError k _ | AHeader k _ => negb (Nat.eqb k i)
  | ADiscover _ | AGlobal _ _ | AReturn _ => true
  end.

Definition local_error (s : sthread) : Z :=
  match nth_error (sn_stats (sr_w s)) (sr_i s) with Some t => st_local t | None => OK end.
Definition global_seen (s : sthread) : bool :=
  match nth_error (sn_hist (sr_w s)) (sr_i s) with Some hi => hi_global hi | None => false end.

Definition with_w (s : sthread) (w : sender) (st : sstate) : sthread :=
  {| sr_w := w; sr_i := sr_i s; sr_state := st; sr_ctr := sr_ctr s; sr_socket := sr_socket s;
     sr_resolved := sr_resolved s; sr_conns := sr_conns s; sr_dials := sr_dials s |}.
Definition with_ctr (s : sthread) (c : Z) : sthread :=
  {| sr_w := sr_w s; sr_i := sr_i s; sr_state := sr_state s; sr_ctr := c; sr_socket := sr_socket s;
     sr_resolved := sr_resolved s; sr_conns := sr_conns s; sr_dials := sr_dials s |}.
Definition with_resolved (s : sthread) : sthread :=
  {| sr_w := sr_w s; sr_i := sr_i s; sr_state := sr_state s; sr_ctr := sr_ctr s; sr_socket := sr_socket s;
     sr_resolved := true; sr_conns := sr_conns s; sr_dials := sr_dials s |}.
Definition dialled (s : sthread) (socket : bool) (n : Z) : sthread :=
  {| sr_w := sr_w s; sr_i := sr_i s; sr_state := sr_state s; sr_ctr := sr_ctr s; sr_socket := socket;
     sr_resolved := sr_resolved s; sr_conns := sr_conns s + 1; sr_dials := sr_dials s + n |}.

(** Perform action [a] on the shared data, then continue. *)
Definition act (s : sthread) (a : sact) (k : sender -> option (outcome sthread)) : option (outcome sthread) :=
  match sn_step (sr_w s) a with
  | Some (Ret w) => k w
  | Some Crash => Some Crash
  | Some Undef => Some Undef
  | None => None
  end.
Definition goto (s : sthread) (st : sstate) : option (outcome sthread) := Some (Ret (with_w s (sr_w s) st)).
(** threadStats_.setLocalErrorCode(e); return st; *)
Definition fail (s : sthread) (e : Z) (st : sstate) : option (outcome sthread) :=
  act s (AError (sr_i s) e) (fun w => Some (Ret (with_w s w st))).

(** SenderThread::connect, SenderThread.cpp:108-149, and reset, 1016-1019.
    Giving up logs socket_->getPort() (line 123): [Undef] without a socket. *)
Definition connect (o : sopts) (s : sthread) (nonRetryable : Z) (d : dial) (mismatch : bool)
  : option (outcome sthread) :=
  if sr_socket s && negb (nonRetryable =? OK) then fail s nonRetryable SEnd
  else if so_transfer o <=? sr_ctr s then
    if sr_socket s then fail s NO_PROGRESS SEnd else Some Undef
  else
    match connectToReceiver (so_retries o) d with
    | None => None
    | Some (code, n) =>
        let s1 := dialled s (code =? OK) n in
        if code =? ABORT then fail s1 ABORT (if mismatch then SProcVersion else SEnd)
        else if negb (code =? OK) then fail s1 code SEnd
        else
          let next := if negb (local_error s =? OK) then SLocal else SSettings in
          fail s1 OK next
    end.

(** SenderThread::readLocalCheckPoint, SenderThread.cpp:151-206. The answer
    [LGood c] is one that decodes to a single checkpoint for this port; the
    decoder gives no negative counts (Proofs/ProtocolCodecFacts.v), so the test
    for -1 (lines 191-194) is not met. *)
Definition readLocalCheckPoint (s : sthread) (r : local_answer) : option (outcome sthread) :=
  match r with
  | LShort => fail (with_ctr s (sr_ctr s + 1)) SOCKET_READ_ERROR SConnect
  | LBad => fail s PROTOCOL_ERROR SEnd
  | LGood c =>
      match nth_error (sn_hist (sr_w s)) (sr_i s), nth_error (sn_stats (sr_w s)) (sr_i s) with
      | Some hi, Some ts =>
          match setCheckpoint hi ts c false with
          | Ret (e, _, _, _) =>
              if e =? INVALID_CHECKPOINT then fail s PROTOCOL_ERROR SEnd
              else act s (ALocal (sr_i s) c) (fun w =>
                Some (Ret (with_ctr (with_w s w SSettings)
                                    (if e =? NO_PROGRESS then sr_ctr s + 1 else 0))))
          | Crash => Some Crash
          | Undef => Some Undef
          end
      | _, _ => None
      end
  end.

(** SenderThread::sendBlocks after the block was taken, SenderThread.cpp:300-313.
    Other threads may act while the block is sent. *)
Definition finishBlock (s : sthread) (r : sent) : option (outcome sthread) :=
  act s (ASend (sr_i s) r) (fun w =>
    if global_seen s then fail (with_w s w SSending) CONN_ERROR SEnd
    else match r with
         | SentAll _ => Some (Ret (with_w s w SBlocks))
         | SentPart _ _ _ => Some (Ret (with_w s w SCheckAbort))
         end).

(** SenderThread::start's loop, SenderThread.cpp:967-980, with the state
    functions. Header byte counts are left out. [None]: not the input this
    state meets. *)
Definition sr_step (o : sopts) (s : sthread) (e : sin) : option (outcome sthread) :=
  match e with
  | IOther a => if foreign (sr_i s) a then act s a (fun w => Some (Ret (with_w s w (sr_state s)))) else None
  | IAbort mismatch =>
      (* lines 968-977; a block being sent is not interrupted here *)
      match sr_state s with
      | SEnd | SSending => None
      | _ => fail s ABORT (if mismatch then SProcVersion else SEnd)
      end
  | _ =>
  match sr_state s, e with
  | SConnect, IConnect nr d m => connect o s nr d m
  | SLocal, ILocal r => readLocalCheckPoint s r
  | SSettings, ISettings written chunks =>
      (* sendSettings, 208-245 *)
      if written then goto s (if chunks then SChunks else SBlocks)
      else fail s SOCKET_WRITE_ERROR SConnect
  | SBlocks, ISizeFirst => goto s SSize
  | SBlocks, ITake j opened =>
      act s (ATake (sr_i s) j opened) (fun w =>
        Some (Ret (with_w s w (match nth_error (sn_flight w) (sr_i s) with
                               | Some (Some _) => SSending | _ => SBlocks end))))
  | SBlocks, INoSource => goto s SDone
  | SSending, ISend r => finishBlock s r
  | SSize, ISize written =>
      (* sendSizeCmd, 448-464 *)
      if written then goto s SBlocks else fail s SOCKET_WRITE_ERROR SCheckAbort
  | SDone, IDone written =>
      (* sendDoneCmd, 466-488 *)
      if written then goto s SRecvCmd else fail s SOCKET_WRITE_ERROR SCheckAbort
  | SCheckAbort, ICheck abortCmd =>
      (* checkForAbort, 490-504 *)
      goto s (if abortCmd then SProcAbort else SConnect)
  | SChunks, IChunks r =>
      (* readFileChunks, 506-623 *)
      match r with
      | ChFail e => if e =? OK then None else fail s e SCheckAbort
      | ChAbort => goto s SProcAbort
      | ChWait | ChSpurious => goto s SChunks
      | ChSpuriousShort => fail s SOCKET_READ_ERROR SConnect
      | ChBad => fail s PROTOCOL_ERROR SEnd
      | ChDone => goto s SBlocks
      end
  | SRecvCmd, IRecv r =>
      (* readReceiverCmd, 685-723 *)
      match r with
      | RcFail e => if e =? OK then None else fail s e SConnect
      | RcErr => goto s SProcErr
      | RcWait => goto s SProcWait
      | RcDone => goto s SProcDone
      | RcAbort => goto s SProcAbort
      | RcSpurious | RcHeartBeat => goto s SRecvCmd
      | RcSpuriousShort => fail s SOCKET_READ_ERROR SConnect
      | RcSpuriousBad | RcUnexpected => fail s PROTOCOL_ERROR SEnd
      end
  | SProcDone, IProcDone e =>
      (* processDoneCmd, 759-779 *)
      act s (AAckAll (sr_i s)) (fun w =>
        if e =? OK then Some (Ret (with_w s w SEnd)) else fail (with_w s w SProcDone) e SConnect)
  | SProcWait, IProcWait =>
      (* processWaitCmd, 781-788 *)
      act s (AAckAll (sr_i s)) (fun w => Some (Ret (with_w s w SRecvCmd)))
  | SProcErr, IProcErr r =>
      (* processErrCmd, 790-827; the global checkpoints it hands to the
         histories (lines 822-825) come as [IOther (AGlobal _ _)] *)
      act s (AAckAll (sr_i s)) (fun w =>
        match r with
        | ErShort => fail (with_w s w SProcErr) SOCKET_READ_ERROR SConnect
        | ErBad => fail (with_w s w SProcErr) PROTOCOL_ERROR SEnd
        | ErGood => Some (Ret (with_w s w SBlocks))
        end)
  | SProcAbort, IProcAbort mismatch =>
      (* processAbortCmd, 829-867; [mismatch]: VERSION_MISMATCH with a version
         the sender supports *)
      fail s ABORT (if mismatch then SProcVersion else SEnd)
  | SProcVersion, IVersion resolved =>
      (* processVersionMismatch, 869-942: once resolved (by any thread) a
         second mismatch ends the thread. The returning of blocks (line 895)
         comes as [IOther (AReturn _)]. *)
      if sr_resolved s then goto s SEnd
      else if resolved then goto (with_resolved s) SConnect else goto s SEnd
  | _, _ => None
  end
  end.

Fixpoint sr_run (o : sopts) (s : sthread) (l : list sin) : option (outcome sthread) :=
  match l with
  | [] => Some (Ret s)
  | e :: r => match sr_step o s e with
              | Some (Ret s') => sr_run o s' r
              | x => x
              end
  end.

(** ** Waiting for the receiver's answer *)

(** One turn of readNextReceiverCmd's loop: what socket_->read returned, the
    thread's abort code, the socket's read error code, and the unacknowledged
    bytes the system reports then. *)
Record turn := { tn_read : Z; tn_abort : Z; tn_code : Z; tn_unacked : Z }.

(** [Waiting n t]: still in the loop with [n] unacknowledged bytes last seen,
    after [t] time-outs. [Draining t]: the send buffer is empty, one final read
    with a time limit follows. *)
Inductive waiting := Waiting (n t : Z) | Answered (e : Z) | Draining (t : Z) | Stopped.

(** The loop of SenderThread::readNextReceiverCmd, SenderThread.cpp:629-668;
    the checks at lines 641 and 655 stop the process: [Stopped]. *)
Definition wait_turn (n t : Z) (x : turn) : waiting :=
  if tn_read x =? 1 then Answered OK
  else if negb (tn_abort x =? OK) then Answered ABORT
  else if tn_read x =? 0 then Answered SOCKET_READ_ERROR
  else if 0 <=? tn_read x then Stopped
  else if negb (tn_code x =? WDT_TIMEOUT) then Answered SOCKET_READ_ERROR
  else if (n <? 0) || (tn_unacked x <? 0) then Answered SOCKET_READ_ERROR
  else if n <? tn_unacked x then Stopped
  else if tn_unacked x =? 0 then Draining (t + 1)
  else if tn_unacked x =? n then Answered SOCKET_READ_ERROR
  else Waiting (tn_unacked x) (t + 1).

Fixpoint wait_loop (n t : Z) (l : list turn) : waiting :=
  match l with
  | [] => Waiting n t
  | x :: r => match wait_turn n t x with
              | Waiting n' t' => wait_loop n' t' r
              | w => w
              end
  end.

(** SenderThread::readNextReceiverCmd, SenderThread.cpp:625-683: [unacked] is
    the first look at the unacknowledged bytes, [final] what the last timed
    read returned. [None]: not finished with these turns. *)
Definition readNextReceiverCmd (unacked : Z) (l : list turn) (final : Z) : option (outcome Z) :=
  match wait_loop unacked 0 l with
  | Waiting _ _ => None
  | Answered e => Some (Ret e)
  | Draining _ => Some (Ret (if final =? 1 then OK else SOCKET_READ_ERROR))
  | Stopped => Some Crash
  end.
