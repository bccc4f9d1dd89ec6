(** Heart beats: ReceiverThread::sendHeartBeat, ReceiverThread.cpp:370-387, the switch in
    the settings, SenderThread.cpp:215-233 and ReceiverThread.cpp:346, and the places where
    the sender reads from the connection: readHeartBeats, SenderThread.cpp:247-280,
    checkForAbort, 490-504, and readReceiverCmd, 685-723. Times are nanoseconds. *)
From Coq Require Export ZArith List Bool.
From Verif Require Export Model.Bytes Model.Progress Model.Stats Model.ProtocolCodec.
Import ListNotations.
Open Scope Z_scope.

(** Protocol.h:276-294. *)
Definition ABORT_CMD := 65.
Definition HEART_BEAT_CMD := 72.

(** The sender decides, SenderThread.cpp:215-225. *)
Definition sender_beats (version : Z) (enable_heart_beat : bool) : bool :=
  (HEART_BEAT_VERSION <=? version) && enable_heart_beat.

(** durationMillis, Reporting.h:40-43. *)
Definition since_ms (now last : Z) : Z := to_int (Z.quot (now - last) 1000000).

(** sendHeartBeat: the new lastHeartBeatTime_ and whether a heart beat is sent.
    [timeout] is senderReadTimeout_, an int64_t; the result of the write is ignored. *)
Definition send_beat (en : bool) (timeout last now : Z) : Z * bool :=
  if en then
    if since_ms now last <=? to_int (Z.quot timeout 5) then (last, false) else (now, true)
  else (last, false).

(** readHeartBeats: the result, the new lastHeartBeatTime_, the bytes left unread. [got] is
    what the read returns: at most the number of bytes that arrived and of the buffer. *)
Definition read_beats (en : bool) (read_timeout last now got : Z) (inp : list Z) : outcome (Z * Z * list Z) :=
  if en then
    if int_ok (read_timeout * 10) then
      if since_ms now last <=? read_timeout * 10 then Ret (OK, last, inp)
      else if got <=? 0 then Ret (SOCKET_READ_ERROR, now, inp)
      else Ret (if forallb (Z.eqb HEART_BEAT_CMD) (firstn (Z.to_nat got) inp) then OK else PROTOCOL_ERROR,
                now, skipn (Z.to_nat got) inp)
    else Undef
  else Ret (OK, last, inp).

(** One connection after the settings. The sender sends blocks; has sent DONE and waits;
    has read a command; has found a write to fail and looked for an abort. *)
Inductive phase := PSend | PWait | PGot | PChecked (found : bool).
Record conn := {
  cn_ph : phase;
  cn_answered : bool;        (* the receiver has answered the DONE *)
  cn_gone : bool;            (* the receiver has sent an abort and closed the connection *)
  cn_chan : list Z;          (* sent by the receiver and not read *)
  cn_rlast : Z; cn_slast : Z;(* lastHeartBeatTime_ of receiver and sender *)
  cn_beats : Z;              (* heart beats sent *)
  cn_results : list Z;       (* results of readHeartBeats; the callers ignore them, 294 and 360 *)
  cn_taken : list (list Z)   (* the answers read, last first *)
}.
Definition conn_new (rlast slast : Z) : conn :=
  {| cn_ph := PSend; cn_answered := false; cn_gone := false; cn_chan := []; cn_rlast := rlast; cn_slast := slast;
     cn_beats := 0; cn_results := []; cn_taken := [] |}.
Inductive hev :=
| EBeat (now : Z)           (* the receiver calls sendHeartBeat while it processes a block *)
| ERead (now got : Z)       (* the sender calls readHeartBeats *)
| EDone                     (* the sender sends DONE *)
| EAnswer (b : list Z)      (* the receiver answers the DONE, in one piece *)
| ECmd                      (* readReceiverCmd reads a byte *)
| EResume                   (* the sender, having read the whole answer, sends blocks again *)
| EAbort (b : list Z)       (* sendAbortCmd, ReceiverThread.cpp:858-876: ABORT_CMD and [b] *)
| ECheck.                   (* a write failed: checkForAbort *)
Definition upd (c : conn) ph answered gone chan rlast slast beats results taken : conn :=
  {| cn_ph := ph; cn_answered := answered; cn_gone := gone; cn_chan := chan; cn_rlast := rlast; cn_slast := slast;
     cn_beats := beats; cn_results := results; cn_taken := taken |}.
(** [None]: the event is not possible. *)
Definition hstep (en : bool) (timeout : Z) (c : conn) (e : hev) : option (outcome conn) :=
  match c with
  | {| cn_ph := ph; cn_answered := an; cn_gone := g; cn_chan := ch; cn_rlast := rl; cn_slast := sl;
       cn_beats := nb; cn_results := rs; cn_taken := tk |} =>
  match e with
  | EBeat now =>
      match ph with
      | PSend | PWait =>
          if an || g then None
          else let '(rl', s) := send_beat en timeout rl now in
               Some (Ret (upd c ph an g (if s then ch ++ [HEART_BEAT_CMD] else ch) rl' sl
                              (if s then nb + 1 else nb) rs tk))
      | _ => None
      end
  | ERead now got =>
      match ph with
      | PSend =>
          if got <=? zlen ch then
            Some (obind (read_beats en timeout sl now got ch) (fun r => let '(code, sl', ch') := r in
                  Ret (upd c ph an g ch' rl sl' nb (code :: rs) tk)))
          else None
      | _ => None
      end
  | EDone => match ph with PSend => Some (Ret (upd c PWait an g ch rl sl nb rs tk)) | _ => None end
  | EAnswer b =>
      match ph with
      | PWait => if an || g then None else Some (Ret (upd c ph true g (ch ++ b) rl sl nb rs tk))
      | _ => None
      end
  | ECmd =>
      match ph, ch with
      | PWait, x :: r =>
          if x =? HEART_BEAT_CMD then Some (Ret (upd c PWait an g r rl sl nb rs tk))
          else Some (Ret (upd c PGot an g r rl sl nb rs ((x :: r) :: tk)))
      | _, _ => None
      end
  | EResume => match ph with PGot => if g then None else Some (Ret (upd c PSend false g [] rl sl nb rs tk)) | _ => None end
  | EAbort b =>
      match ph with
      | PSend | PWait => if an || g then None else Some (Ret (upd c ph an true (ch ++ ABORT_CMD :: b) rl sl nb rs tk))
      | _ => None
      end
  | ECheck =>
      match ph with
      | PSend =>
          match ch with
          | x :: r => Some (Ret (upd c (PChecked (x =? ABORT_CMD)) an g r rl sl nb rs tk))
          | [] => Some (Ret (upd c (PChecked false) an g [] rl sl nb rs tk))
          end
      | _ => None
      end
  end
  end.
Fixpoint hrun (en : bool) (timeout : Z) (c : conn) (l : list hev) : option (outcome conn) :=
  match l with
  | [] => Some (Ret c)
  | e :: r => match hstep en timeout c e with
              | Some (Ret c') => hrun en timeout c' r
              | other => other
              end
  end.

(** The loop of sendOneByteSource, SenderThread.cpp:357-394: heart beats are read into the
    buffer of the thread, buf_, into which the source reads as well. [turns]: what arrived,
    if anything was read, and what the source reads. The bytes written. *)
Definition into (new buf : list Z) : list Z := new ++ skipn (length new) buf.
Fixpoint send_data (buf : list Z) (turns : list (option (list Z) * list Z)) : list Z :=
  match turns with
  | [] => []
  | (hb, d) :: r =>
      let b1 := match hb with Some x => into x buf | None => buf end in
      let b2 := into d b1 in
      firstn (length d) b2 ++ send_data b2 r
  end.

(** Times of the heart beats sent, and of the reads made, over calls at [nows]. *)
Fixpoint beat_times (en : bool) (timeout last : Z) (nows : list Z) : list Z :=
  match nows with
  | [] => []
  | n :: r => let '(l', s) := send_beat en timeout last n in
              if s then n :: beat_times en timeout l' r else beat_times en timeout l' r
  end.
