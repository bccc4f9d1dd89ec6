(** All threads of one receiver: the states of ReceiverThread, the list of
    global checkpoints shared by the threads, the thread states kept by the
    controller, and the sessions of a long-running receiver. What one thread
    does to a connection's bytes is in RecvConn.v; here a command is read in one
    step, and network, disk and user decide its result. *)
From Verif Require Export Model.Stats Model.QueueMonitor.

(** enum ThreadStatus, util/ThreadsController.h:22-31, without INIT: the
    constructors of the threads register them (ReceiverThread.cpp:103). *)
Inductive rstatus := RRunning | RWaiting | RFinished.

(** enum ReceiverState, ReceiverThread.h:24-41. The wait state is cut where the
    thread holds no lock: [PWait] before it marks itself waiting, [PCheck] before
    the first and [PSleep] before the second look at the shared state, [PSendWait]
    before writing WAIT. [PAwaitAck] is the second half of SEND_DONE_CMD.
    [PGone]: start() has returned. The PROCESS_ states are part of [PRead]. *)
Inductive rphase :=
| PListen | PFirst | PAccept | PSendLocal | PRead | PChunks | PSendGlobal
| PWait | PCheck | PSleep | PSendWait | PSendDone | PAwaitAck | PSendAbort
| PFinish | PEnd | PGone.

(** Fields of ReceiverThread, ReceiverThread.h:290-340. *)
Record rthread := {
  rt_ph : rphase;
  rt_st : rstatus;               (* threadStateMap_[threadIndex_] *)
  rt_err : Z;                    (* threadStats_' local error code *)
  rt_idx : nat;                  (* checkpointIndex_ *)
  rt_pend : nat;                 (* pendingCheckpointIndex_ *)
  rt_new : list checkpoint;      (* newCheckpoints_ *)
  rt_ck : checkpoint;            (* checkpoint_ *)
  rt_unver : list Z;             (* blocksWaitingVerification_: their sizes *)
  rt_timeout : Z                 (* senderReadTimeout_ *)
}.

(** Checkpoint(port), Protocol.h:35-53. *)
Definition checkpoint_new (port : Z) : checkpoint :=
  {| ck_port := port; ck_numBlocks := 0; ck_lastBlockSeqId := 0; ck_lastBlockOffset := 0;
     ck_lastBlockReceivedBytes := 0; ck_hasSeqId := false |}.
(** resetLastBlockDetails, setLastBlockDetails, incrNumBlocks, Protocol.h:59-74. *)
Definition ck_last (c : checkpoint) (seq off bytes : Z) : checkpoint :=
  {| ck_port := ck_port c; ck_numBlocks := ck_numBlocks c; ck_lastBlockSeqId := seq;
     ck_lastBlockOffset := off; ck_lastBlockReceivedBytes := bytes; ck_hasSeqId := ck_hasSeqId c |}.
Definition ck_incr (c : checkpoint) (n : Z) : checkpoint :=
  {| ck_port := ck_port c; ck_numBlocks := ck_numBlocks c + n; ck_lastBlockSeqId := ck_lastBlockSeqId c;
     ck_lastBlockOffset := ck_lastBlockOffset c;
     ck_lastBlockReceivedBytes := ck_lastBlockReceivedBytes c; ck_hasSeqId := ck_hasSeqId c |}.

(** ReceiverThread::ReceiverThread and init, ReceiverThread.cpp:98-105, 1012-1049. *)
Definition rthread_new (port : Z) : rthread :=
  {| rt_ph := PListen; rt_st := RRunning; rt_err := OK; rt_idx := 0; rt_pend := 0; rt_new := [];
     rt_ck := checkpoint_new port; rt_unver := []; rt_timeout := 0 |}.

(** ReceiverThread::reset, ReceiverThread.cpp:1051-1061. The port of the socket
    is that of the checkpoint (line 1047). *)
Definition rt_reset (t : rthread) : rthread :=
  {| rt_ph := rt_ph t; rt_st := rt_st t; rt_err := OK; rt_idx := 0; rt_pend := 0; rt_new := [];
     rt_ck := checkpoint_new (ck_port (rt_ck t)); rt_unver := rt_unver t; rt_timeout := -1 |}.

Definition go (t : rthread) (p : rphase) : rthread :=
  {| rt_ph := p; rt_st := rt_st t; rt_err := rt_err t; rt_idx := rt_idx t; rt_pend := rt_pend t;
     rt_new := rt_new t; rt_ck := rt_ck t; rt_unver := rt_unver t; rt_timeout := rt_timeout t |}.
Definition fail (t : rthread) (e : Z) (p : rphase) : rthread :=
  {| rt_ph := p; rt_st := rt_st t; rt_err := e; rt_idx := rt_idx t; rt_pend := rt_pend t;
     rt_new := rt_new t; rt_ck := rt_ck t; rt_unver := rt_unver t; rt_timeout := rt_timeout t |}.
Definition mark (t : rthread) (s : rstatus) : rthread :=
  {| rt_ph := rt_ph t; rt_st := s; rt_err := rt_err t; rt_idx := rt_idx t; rt_pend := rt_pend t;
     rt_new := rt_new t; rt_ck := rt_ck t; rt_unver := rt_unver t; rt_timeout := rt_timeout t |}.
Definition index (t : rthread) (i p : nat) : rthread :=
  {| rt_ph := rt_ph t; rt_st := rt_st t; rt_err := rt_err t; rt_idx := i; rt_pend := p;
     rt_new := rt_new t; rt_ck := rt_ck t; rt_unver := rt_unver t; rt_timeout := rt_timeout t |}.
Definition blocks (t : rthread) (c : checkpoint) (u : list Z) : rthread :=
  {| rt_ph := rt_ph t; rt_st := rt_st t; rt_err := rt_err t; rt_idx := rt_idx t; rt_pend := rt_pend t;
     rt_new := rt_new t; rt_ck := c; rt_unver := u; rt_timeout := rt_timeout t |}.
Definition news (t : rthread) (l : list checkpoint) : rthread :=
  {| rt_ph := rt_ph t; rt_st := rt_st t; rt_err := rt_err t; rt_idx := rt_idx t; rt_pend := rt_pend t;
     rt_new := l; rt_ck := rt_ck t; rt_unver := rt_unver t; rt_timeout := rt_timeout t |}.
Definition timeout (t : rthread) (n : Z) : rthread :=
  {| rt_ph := rt_ph t; rt_st := rt_st t; rt_err := rt_err t; rt_idx := rt_idx t; rt_pend := rt_pend t;
     rt_new := rt_new t; rt_ck := rt_ck t; rt_unver := rt_unver t; rt_timeout := n |}.

(** markReceivedBlocksVerified, ReceiverThread.cpp:684-689: also the callback
    for a verified encryption tag (1016-1018). *)
Definition verifyWaiting (t : rthread) : rthread :=
  blocks t (ck_incr (rt_ck t) (zlen (rt_unver t))) [].

(** ** What the network, the disk and the user answer *)

(** How processFileCmd goes on after a well-formed header
    (ReceiverThread.cpp:476-666). *)
Inductive fres :=
| FVerified                    (* received, written and verified (653, 662) *)
| FStored (size : Z)           (* received and written, waits for a tag (660) *)
| FBroken (bytes : Z) (credit : bool) (e : Z) (next : rphase).
   (* left early with error e after writing [bytes]; [credit]: neither tags
      nor checksums are used (482-491). next: PAccept, PSendAbort, PFinish *)

(** readNextCmd and the PROCESS_ state it leads to. *)
Inductive rcmd :=
| CReadFail                    (* 263-268 *)
| CUnknown                     (* 282-284 *)
| CSettingsBad                 (* 296-300, 333-337 *)
| CSettingsAbort (e : Z)       (* 307-322, 340-345: VERSION_*, ID_MISMATCH *)
| CSettings (t : Z) (chunks : bool)
| CSizeBad | CSize             (* 720-735 *)
| CFileShort                   (* 436-441 *)
| CFileBad                     (* 419-423, 446-472 *)
| CFile (seq off : Z) (r : fres)
| CDoneBad                     (* 693-699, 706-710 *)
| CDone
| CTag.                        (* not a command: a tag verified while reading *)

Inductive rin :=
| IListen (ok : bool)          (* LISTEN *)
| IFirst                       (* ACCEPT_FIRST_CONNECTION: a connection *)
| IFirstOther                  (* another thread got one (144-146) *)
| IFirstFail (e : Z)           (* 149-174: CONN_ERROR or ABORT *)
| IAccept                      (* ACCEPT_WITH_TIMEOUT: a connection *)
| IAcceptFail (e : Z)          (* 214-219 *)
| INonRetryable (e : Z)        (* 196-203 *)
| IWrite (ok : bool)           (* the states that only write *)
| ICmd (c : rcmd)              (* READ_NEXT_CMD *)
| IChunks (e : Z)              (* SEND_FILE_CHUNKS left with e *)
| IAck (e : Z)                 (* the sender's DONE and end of stream; e: closeConnection() *)
| IAckFail (e : Z)             (* 890-902 *)
| INone.

(** What the outside can see, in order. *)
Inductive rout :=
| OSession                            (* a new session of a long-running receiver *)
| OAccepted (i : nat)                 (* thread i begins to use a new connection *)
| OCommand (i : nat)                  (* read a well-formed block header or DONE *)
| OAdded (i : nat) (c : checkpoint)   (* thread i failed; its checkpoint is global *)
| OTold (i : nat) (cs : list checkpoint) (* ERR_CMD with cs written *)
| OLocal (i : nat) (c : checkpoint)   (* local checkpoint written *)
| OWait (i : nat)                     (* WAIT written *)
| OEnding (i : nat)                   (* decided to report the end *)
| ODone (i : nat)                     (* DONE written *)
| OGone (i : nat).                    (* thread ended *)

(** ** The receiver *)

Record rsession := {
  rs_ckpts : list checkpoint;    (* checkpoints_, Receiver.h:204 *)
  rs_threads : list rthread;
  rs_started : bool;             (* hasNewTransferStarted_ *)
  rs_abort : bool;               (* getCurAbortCode() != OK *)
  rs_begun : bool;               (* executeAtStart's action ran *)
  rs_gone : nat                  (* executeAtEnd's calls *)
}.
Definition rsession_init (ports : list Z) : rsession :=
  {| rs_ckpts := []; rs_threads := map rthread_new ports; rs_started := false; rs_abort := false;
     rs_begun := false; rs_gone := 0 |}.

Definition put (s : rsession) (i : nat) (t : rthread) : rsession :=
  {| rs_ckpts := rs_ckpts s; rs_threads := set_nth (rs_threads s) i t; rs_started := rs_started s;
     rs_abort := rs_abort s; rs_begun := rs_begun s; rs_gone := rs_gone s |}.

(** Receiver::addCheckpoint, Receiver.cpp:20-25. *)
Definition addCheckpoint (s : rsession) (c : checkpoint) : rsession :=
  {| rs_ckpts := rs_ckpts s ++ [c]; rs_threads := rs_threads s; rs_started := rs_started s;
     rs_abort := rs_abort s; rs_begun := rs_begun s; rs_gone := rs_gone s |}.
(** Receiver::getNewCheckpoints, Receiver.cpp:27-34. *)
Definition getNewCheckpoints (s : rsession) (start : nat) : list checkpoint :=
  skipn start (rs_ckpts s).

(** ThreadsController::hasThreads(i, RUNNING), util/ThreadsController.cpp:192-203. *)
Definition is_running (t : rthread) : bool :=
  match rt_st t with RRunning => true | _ => false end.
Fixpoint hasRunning (l : list rthread) (i : nat) : bool :=
  match l, i with
  | [], _ => false
  | _ :: r, O => existsb is_running r
  | t :: r, S j => is_running t || hasRunning r j
  end.

(** checkForFinishOrNewCheckpoints, ReceiverThread.cpp:929-942, as a step of the
    wait loop (951-969): the lock of the condition is held. [stay]: the phase
    when nothing was found. *)
Definition checkForFinishOrNew (s : rsession) (i : nat) (t : rthread) (stay : rphase)
  : rsession * list rout :=
  match getNewCheckpoints s (rt_idx t) with
  | (_ :: _) as cs => (put s i (go (mark (news t cs) RRunning) PSendGlobal), [])
  | [] => if hasRunning (rs_threads s) i then (put s i (go t stay), [])
          else (put s i (go (mark t RFinished) PSendDone), [OEnding i])
  end.

(** Receiver::startNewGlobalSession run by the first thread that calls
    executeAtStart, Receiver.cpp:71-90, ReceiverThread.cpp:185-188. *)
Definition startSession (s : rsession) : rsession :=
  {| rs_ckpts := rs_ckpts s; rs_threads := rs_threads s;
     rs_started := rs_started s || negb (rs_begun s);
     rs_abort := rs_abort s; rs_begun := true; rs_gone := rs_gone s |}.

(** Receiver::endCurGlobalSession, Receiver.cpp:96-112. *)
Definition endCurGlobalSession (s : rsession) : rsession :=
  if rs_started s
  then {| rs_ckpts := []; rs_threads := rs_threads s; rs_started := false; rs_abort := rs_abort s;
          rs_begun := rs_begun s; rs_gone := rs_gone s |}
  else s.

(** The end of start(), ReceiverThread.cpp:1001-1003: deRegisterThread, then
    executeAtEnd, whose action the last thread runs. *)
Definition leave (s : rsession) (i : nat) (t : rthread) : rsession * list rout :=
  let s1 := put s i (go (mark t RFinished) PGone) in
  let s2 := {| rs_ckpts := rs_ckpts s1; rs_threads := rs_threads s1; rs_started := rs_started s1;
               rs_abort := rs_abort s1; rs_begun := rs_begun s1; rs_gone := S (rs_gone s1) |} in
  ((if Nat.eqb (rs_gone s2) (length (rs_threads s2)) then endCurGlobalSession s2 else s2),
   [OGone i]).

(** READ_NEXT_CMD with the PROCESS_ states, ReceiverThread.cpp:257-735. *)
Definition readCmd (t : rthread) (c : rcmd) : option (rthread * bool) :=
  match c with
  | CReadFail => Some (fail t SOCKET_READ_ERROR PAccept, false)
  | CUnknown | CSettingsBad | CSizeBad | CDoneBad => Some (fail t PROTOCOL_ERROR PFinish, false)
  | CSettingsAbort e =>
      if (e =? VERSION_INCOMPATIBLE) || (e =? VERSION_MISMATCH) || (e =? ID_MISMATCH)
      then Some (fail t e PSendAbort, false) else None
  | CSettings n chunks => Some (go (timeout t n) (if chunks then PChunks else PRead), false)
  | CSize => Some (t, false)
  | CFileShort => Some (fail (blocks t (ck_last (rt_ck t) 0 0 0) (rt_unver t)) SOCKET_READ_ERROR PAccept, false)
  | CFileBad => Some (fail (blocks t (ck_last (rt_ck t) 0 0 0) (rt_unver t)) PROTOCOL_ERROR PFinish, false)
  | CFile seq off r =>
      let t1 := index (blocks t (ck_last (rt_ck t) 0 0 0) (rt_unver t)) (rt_pend t) (rt_pend t) in
      match r with
      | FVerified => Some (blocks t1 (ck_incr (rt_ck t1) 1) (rt_unver t1), true)
      | FStored n => Some (blocks t1 (rt_ck t1) (rt_unver t1 ++ [n]), true)
      | FBroken bytes credit e next =>
          match next with
          | PAccept | PSendAbort | PFinish =>
              if (e =? OK) || (e =? VERSION_MISMATCH) then None
              else Some (fail (if credit then blocks t1 (ck_last (rt_ck t1) seq off bytes) (rt_unver t1)
                               else t1) e next, true)
          | _ => None
          end
      end
  | CDone => Some (go (index t (rt_pend t) (rt_pend t)) PWait, true)
  | CTag => Some (verifyWaiting t, false)
  end.

(** One state function, or one part of the wait state, of thread [i]. [None]:
    the state cannot meet this answer. *)
Definition stateStep (s : rsession) (i : nat) (t : rthread) (a : rin)
  : option (outcome (rsession * list rout)) :=
  let ret t' o := Some (Ret (put s i t', o)) in
  match rt_ph t, a with
  (* listen, 108-134 *)
  | PListen, IListen true => ret (go t PFirst) []
  | PListen, IListen false => ret (fail t CONN_ERROR PFinish) []
  (* acceptFirstConnection, 137-190 *)
  | PFirst, IFirst => Some (Ret (put (startSession s) i (go (rt_reset t) PRead), [OAccepted i]))
  | PFirst, IFirstOther => if rs_started s then ret (go (rt_reset t) PAccept) [] else None
  | PFirst, IFirstFail e =>
      if (e =? CONN_ERROR) || (e =? ABORT) then ret (fail (rt_reset t) e PFinish) [] else None
  (* acceptWithTimeout, 193-232 *)
  | PAccept, INonRetryable e => if e =? OK then None else ret (fail t e PEnd) []
  | PAccept, IAcceptFail e =>
      if e =? OK then None else ret (fail (blocks t (rt_ck t) []) e PFinish) []
  | PAccept, IAccept =>
      let t1 := index (blocks t (rt_ck t) []) (rt_idx t) (rt_idx t) in
      ret (fail t1 OK (if rt_err t =? OK then PRead else PSendLocal)) [OAccepted i]
  (* sendLocalCheckpoint, 235-254 *)
  | PSendLocal, IWrite true => ret (go t PRead) [OLocal i (rt_ck t)]
  | PSendLocal, IWrite false => ret (fail t SOCKET_WRITE_ERROR PAccept) []
  (* readNextCmd, 257-285 *)
  | PRead, ICmd c =>
      match readCmd t c with
      | Some (t', true) => ret t' [OCommand i]
      | Some (t', false) => ret t' []
      | None => None
      end
  (* sendFileChunks, 737-831; must have received settings (739) *)
  | PChunks, IChunks e =>
      if rt_timeout t <=? 0 then Some Crash
      else ret (if e =? OK then go t PRead else fail t e PAccept) []
  (* sendGlobalCheckpoint, 833-856 *)
  | PSendGlobal, IWrite true =>
      ret (go (index t (rt_idx t) (rt_idx t + length (rt_new t))) PRead) [OTold i (rt_new t)]
  | PSendGlobal, IWrite false => ret (fail t SOCKET_WRITE_ERROR PAccept) []
  (* waitForFinishOrNewCheckpoint, 944-981 *)
  | PWait, INone => if rt_err t =? OK then ret (go (mark t RWaiting) PCheck) [] else Some Crash
  | PCheck, INone =>
      if rt_timeout t <=? 0 then Some Crash else Some (Ret (checkForFinishOrNew s i t PSleep))
  | PSleep, INone => Some (Ret (checkForFinishOrNew s i t PSendWait))
  | PSendWait, IWrite true => ret (go t PCheck) [OWait i]
  | PSendWait, IWrite false => ret (fail (mark t RRunning) SOCKET_WRITE_ERROR PAccept) []
  (* sendDoneCmd, 878-906 *)
  | PSendDone, IWrite true => ret (go t PAwaitAck) [ODone i]
  | PSendDone, IWrite false => ret (fail t SOCKET_WRITE_ERROR PAccept) []
  | PAwaitAck, IAck e => ret (fail (verifyWaiting t) e PEnd) []
  | PAwaitAck, IAckFail e => if e =? OK then None else ret (fail t e PAccept) []
  (* sendAbortCmd, 858-876 *)
  | PSendAbort, IWrite _ =>
      ret (go t (if rt_err t =? VERSION_MISMATCH then PAccept else PFinish)) []
  (* finishWithError, 908-927 *)
  | PFinish, INone =>
      if rt_err t =? OK then Some Crash
      else Some (Ret (put (addCheckpoint s (rt_ck t)) i (go (mark t RFinished) PEnd),
                      [OAdded i (rt_ck t)]))
  | _, _ => None
  end.

(** Inside the wait state and between the two halves of SEND_DONE_CMD start()'s
    loop does not look at the abort code. *)
Definition inside (p : rphase) : bool :=
  match p with PCheck | PSleep | PSendWait | PAwaitAck => true | _ => false end.

(** One turn of the loop of start(), ReceiverThread.cpp:990-1003 (the missing
    buffer of lines 984-988 is not modelled). *)
Definition threadStep (s : rsession) (i : nat) (a : rin)
  : option (outcome (rsession * list rout)) :=
  match nth_error (rs_threads s) i with
  | None => None
  | Some t =>
      match rt_ph t with
      | PGone => None
      | p => if rs_abort s && negb (inside p) then Some (Ret (leave s i (fail t ABORT p)))
             else match p with
                  | PEnd => Some (Ret (leave s i t))
                  | _ => stateStep s i t a
                  end
      end
  end.

(** Receiver::start in long-running mode, Receiver.cpp:459-476: all threads were
    joined; they are reset and started again. ThreadsController::reset,
    util/ThreadsController.cpp:235-246. *)
Definition all_gone (s : rsession) : bool :=
  forallb (fun t => match rt_ph t with PGone => true | _ => false end) (rs_threads s).
Definition nextSession (s : rsession) : rsession :=
  {| rs_ckpts := rs_ckpts s; rs_threads := map (fun t => go (mark (rt_reset t) RRunning) PListen) (rs_threads s);
     rs_started := rs_started s; rs_abort := rs_abort s; rs_begun := false; rs_gone := 0 |}.

Inductive revent :=
| EThread (i : nat) (a : rin)
| EAbort                        (* WdtBase::abort or the user's abort checker *)
| ENext.

Definition rs_step (s : rsession) (e : revent) : option (outcome (rsession * list rout)) :=
  match e with
  | EThread i a => threadStep s i a
  | EAbort => Some (Ret ({| rs_ckpts := rs_ckpts s; rs_threads := rs_threads s;
                            rs_started := rs_started s; rs_abort := true; rs_begun := rs_begun s;
                            rs_gone := rs_gone s |}, []))
  | ENext => if all_gone s then Some (Ret (nextSession s, [OSession])) else None
  end.

(** A run with everything seen from outside, oldest first. *)
Fixpoint rs_run (s : rsession) (l : list revent) : option (outcome (rsession * list rout)) :=
  match l with
  | [] => Some (Ret (s, []))
  | e :: r =>
      match rs_step s e with
      | Some (Ret (s', o)) =>
          match rs_run s' r with
          | Some (Ret (s'', o')) => Some (Ret (s'', o ++ o'))
          | x => x
          end
      | Some Crash => Some Crash
      | Some Undef => Some Undef
      | None => None
      end
  end.
