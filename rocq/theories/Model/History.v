(** The sender's per-connection history of sent blocks and what happens to it
    when the receiver confirms part of it: ThreadTransferHistory. Every method
    runs under the history's mutex and is one atomic operation here. *)
From Verif Require Export Model.Stats Model.QueueMonitor.

(** A FileByteSource (util/FileByteSource.h) with its statistics. [h_o], [h_n]
    are ghost fields: the offset and size the block had when it was queued. The
    count of failed attempts lives in the statistics; [s_failed] of the
    embedded [source], used by the queue's comparator, mirrors it. *)
Record hsrc := { h_src : source; h_st : stats; h_o : Z; h_n : Z }.

(** FileByteSource::FileByteSource, util/FileByteSource.cpp:58-66 (the
    identifier is not modelled). *)
Definition newSource (s : source) : hsrc :=
  {| h_src := s; h_st := stats_new; h_o := s_offset s; h_n := s_size s |}.

Definition set_st (h : hsrc) (s : source) (t : stats) : hsrc :=
  {| h_src := s; h_st := t; h_o := h_o h; h_n := h_n h |}.

(** FileByteSource::open, util/FileByteSource.cpp:68-97. [opened]: the OS opened
    the file. A source to be deleted is not opened and keeps its error code. *)
Definition openSource (opened : bool) (h : hsrc) : Z * hsrc :=
  if s_alloc (h_src h) =? TO_BE_DELETED then (OK, h)
  else let e := if opened then OK else BYTE_SOURCE_READ_ERROR in
       (e, set_st h (h_src h) (setLocalErrorCode (h_st h) e)).

(** What the network, the disk and an abort made of one sendOneByteSource call:
    [SentAll hdr]: header, all data and footer written, [hdr] header and footer
    bytes; [SentPart code hdr data]: stopped with error [code] after [hdr]
    header and [data] data bytes (lines 341-349, 389-404, 408-423, 434-439). *)
Inductive send_error := WriteFailed | Aborted | ReadFailed.
Definition send_code (e : send_error) : Z :=
  match e with WriteFailed => SOCKET_WRITE_ERROR | Aborted => ABORT
             | ReadFailed => BYTE_SOURCE_READ_ERROR end.
Inductive sent := SentAll (hdr : Z) | SentPart (code : send_error) (hdr data : Z).

(** SenderThread::sendOneByteSource, SenderThread.cpp:316-446: the statistics it
    returns. It succeeds only when the bytes sent add up to the block's size
    (line 408). *)
Definition sendStats (h : hsrc) (r : sent) : stats :=
  match r with
  | SentAll hdr =>
      let s1 := addDataBytes (addHeaderBytes stats_new hdr) (s_size (h_src h)) in
      let s2 := incrNumBlocks (setLocalErrorCode s1 OK) in
      addEffectiveBytes s2 (st_hdr s2) (st_data s2)
  | SentPart code hdr data =>
      incrFailedAttempts (setLocalErrorCode (addDataBytes (addHeaderBytes stats_new hdr) data)
                            (send_code code))
  end.

Definition with_failed (s : source) (n : Z) : source :=
  {| s_name := s_name s; s_seqId := s_seqId s; s_fileSize := s_fileSize s;
     s_alloc := s_alloc s; s_prevSeqId := s_prevSeqId s;
     s_offset := s_offset s; s_size := s_size s; s_failed := n |}.

(** FileByteSource::addTransferStats, util/FileByteSource.h:106-108. *)
Definition addTransferStats (h : hsrc) (t : stats) : hsrc :=
  let t' := stats_add (h_st h) t in
  set_st h (with_failed (h_src h) (st_failed t')) t'.

(** ThreadTransferHistory's fields, util/ThreadTransferHistory.h:115-130.
    [hi_list] is history_, oldest block first. *)
Record history := {
  hi_list : list hsrc;
  hi_global : bool;               (* globalCheckpoint_ *)
  hi_acked : Z;                   (* numAcknowledged_ *)
  hi_last : option checkpoint;    (* lastCheckpoint_ *)
  hi_inUse : bool                 (* inUse_ *)
}.
Definition history_new : history :=
  {| hi_list := []; hi_global := false; hi_acked := 0; hi_last := None; hi_inUse := true |}.

(** ThreadTransferHistory::markSourceAsFailed,
    util/ThreadTransferHistory.cpp:181-226: the source and the thread's
    statistics afterwards. *)
Definition markSourceAsFailed (h : hsrc) (c : option checkpoint) (ts : stats) : hsrc * stats :=
  let valid :=
    match c with
    | None => false
    | Some k => if ck_hasSeqId k
                then (ck_lastBlockSeqId k =? s_seqId (h_src h)) &&
                     (ck_lastBlockOffset k =? s_offset (h_src h))
                else true
    end in
  let received := match c with
                  | Some k => if valid then ck_lastBlockReceivedBytes k else 0
                  | None => 0
                  end in
  let '(st', ts') :=
    if negb (st_local (h_st h) =? OK) then
      (addEffectiveBytes (h_st h) 0 received, addEffectiveBytes ts 0 received)
    else
      let headerBytes := st_effHdr (h_st h) in
      let wasted := s_size (h_src h) - received in
      (incrFailedAttempts (setLocalErrorCode
         (decrNumBlocks (subtractEffectiveBytes (h_st h) headerBytes wasted)) SOCKET_WRITE_ERROR),
       incrFailedAttempts (decrNumBlocks (subtractEffectiveBytes ts headerBytes wasted))) in
  (set_st h (with_failed (advanceOffset (h_src h) received) (st_failed st')) st', ts').

(** ThreadTransferHistory::addSource, util/ThreadTransferHistory.cpp:34-47:
    history and statistics afterwards, and the source when it went back to the
    queue. *)
Definition addSource (hi : history) (ts : stats) (h : hsrc) : history * stats * option hsrc :=
  if hi_global hi then
    let '(h', ts') := markSourceAsFailed h (hi_last hi) ts in
    ({| hi_list := hi_list hi; hi_global := hi_global hi; hi_acked := hi_acked hi;
        hi_last := None; hi_inUse := hi_inUse hi |}, ts', Some h')
  else
    ({| hi_list := hi_list hi ++ [h]; hi_global := hi_global hi; hi_acked := hi_acked hi;
        hi_last := hi_last hi; hi_inUse := hi_inUse hi |}, ts, None).

(** ThreadTransferHistory::validateCheckpoint,
    util/ThreadTransferHistory.cpp:136-179. *)
Definition validateCheckpoint (last : option checkpoint) (c : checkpoint) (global : bool) : outcome Z :=
  match last with
  | None => Ret OK
  | Some l =>
      if ck_numBlocks c <? ck_numBlocks l then Ret INVALID_CHECKPOINT
      else if ck_numBlocks l <? ck_numBlocks c then Ret OK
      else
        let same := (ck_lastBlockSeqId c =? ck_lastBlockSeqId l) &&
                    (ck_lastBlockOffset c =? ck_lastBlockOffset l) in
        if same then
          if negb (ck_lastBlockReceivedBytes c =? ck_lastBlockReceivedBytes l)
          then Ret INVALID_CHECKPOINT
          else Ret (if negb global then NO_PROGRESS else OK)
        else if ck_lastBlockReceivedBytes c <? 0 then Crash
        else Ret (if (ck_lastBlockReceivedBytes c =? 0) && negb global then NO_PROGRESS else OK)
  end.

(** The loop of setCheckpointAndReturnToQueue,
    util/ThreadTransferHistory.cpp:96-103, over the unconfirmed part of the
    history, newest first; the oldest one gets the checkpoint. *)
Fixpoint fail_all (l : list hsrc) (c : checkpoint) (ts : stats) : list hsrc * stats :=
  match l with
  | [] => ([], ts)
  | h :: rest =>
      let '(h', ts1) := markSourceAsFailed h (match rest with [] => Some c | _ => None end) ts in
      let '(rest', ts2) := fail_all rest c ts1 in
      (h' :: rest', ts2)
  end.

(** ThreadTransferHistory::setCheckpointAndReturnToQueue,
    util/ThreadTransferHistory.cpp:67-109: (status, history, thread statistics,
    sources returned to the queue, in the order returned). A negative number of
    blocks would pop an empty vector: [Undef]. *)
Definition setCheckpoint (hi : history) (ts : stats) (c : checkpoint) (global : bool)
  : outcome (Z * history * stats * list hsrc) :=
  if zlen (hi_list hi) <? ck_numBlocks c then Ret (INVALID_CHECKPOINT, hi, ts, [])
  else
    obind (validateCheckpoint (hi_last hi) c global) (fun e =>
    if e =? INVALID_CHECKPOINT then Ret (INVALID_CHECKPOINT, hi, ts, [])
    else if ck_numBlocks c <? 0 then Undef
    else
      let n := Z.to_nat (ck_numBlocks c) in
      let '(ret, ts') := fail_all (rev (skipn n (hi_list hi))) c ts in
      Ret (e, {| hi_list := firstn n (hi_list hi);
                 hi_global := hi_global hi || global;
                 hi_acked := ck_numBlocks c;
                 hi_last := Some c;
                 hi_inUse := hi_inUse hi |}, ts', ret)).

(** Checkpoint's default values, Protocol.h:35-53. *)
Definition default_checkpoint (numBlocks : Z) : checkpoint :=
  {| ck_port := 0; ck_numBlocks := numBlocks; ck_lastBlockSeqId := 0;
     ck_lastBlockOffset := 0; ck_lastBlockReceivedBytes := 0; ck_hasSeqId := false |}.

(** ThreadTransferHistory::returnUnackedSourcesToQueue,
    util/ThreadTransferHistory.cpp:129-134. *)
Definition returnUnacked (hi : history) (ts : stats) : outcome (Z * history * stats * list hsrc) :=
  setCheckpoint hi ts (default_checkpoint (hi_acked hi)) false.

(** ThreadTransferHistory::markAllAcknowledged,
    util/ThreadTransferHistory.cpp:124-127. *)
Definition markAllAcknowledged (hi : history) : history :=
  {| hi_list := hi_list hi; hi_global := hi_global hi; hi_acked := zlen (hi_list hi);
     hi_last := hi_last hi; hi_inUse := hi_inUse hi |}.

(** ThreadTransferHistory::popAckedSourceStats,
    util/ThreadTransferHistory.cpp:111-122. *)
Definition popAcked (hi : history) : outcome (list stats * history) :=
  if hi_acked hi =? zlen (hi_list hi)
  then Ret (rev (map h_st (hi_list hi)),
            {| hi_list := []; hi_global := hi_global hi; hi_acked := hi_acked hi;
               hi_last := hi_last hi; hi_inUse := hi_inUse hi |})
  else Crash.

(** Sender::validateTransferStats, Sender.cpp:371-408. *)
Fixpoint ssum (f : stats -> Z) (l : list stats) : Z :=
  match l with [] => 0 | s :: r => f s + ssum f r end.
Definition validateTransferStats (transferred failed threads : list stats) : outcome unit :=
  let same f := ssum f transferred + ssum f failed =? ssum f threads in
  if same st_failed && same st_data && same st_effData && same st_blocks then Ret tt else Crash.

(** ** All sender threads together *)

(** The sender's blocks and statistics: the queue, the block each thread is
    sending, each thread's history and statistics, and the statistics of
    sources that could not be opened (DirectorySourceQueue::failedSourceStats_). *)
Record sender := {
  sn_queue : list hsrc;
  sn_flight : list (option hsrc);
  sn_hist : list history;
  sn_stats : list stats;
  sn_failed : list hsrc
}.

(** Sender with [n] threads before discovery. *)
Definition sender_init (n : nat) : sender :=
  {| sn_queue := []; sn_flight := repeat None n; sn_hist := repeat history_new n;
     sn_stats := repeat stats_new n; sn_failed := [] |}.

(** One step of some thread. The queue's own order and blocking are in
    SourceQueue.v and QueueMonitor.v; here a thread may take any queued block.
    Adding to the thread's and the source's statistics and to the history
    (SenderThread.cpp:300-303) is one step: the two additions commute with what
    other threads can do to them in between. *)
Inductive sact :=
| ADiscover (s : source)                 (* a block enters the queue *)
| ATake (i j : nat) (opened : bool)      (* thread i takes the j-th queued block *)
| ASend (i : nat) (r : sent)             (* thread i finishes sending its block *)
| ALocal (i : nat) (c : checkpoint)      (* setLocalCheckpoint *)
| AGlobal (i : nat) (c : checkpoint)     (* setGlobalCheckpoint by any thread *)
| AReturn (i : nat)                      (* returnUnackedSourcesToQueue *)
| AAckAll (i : nat)                      (* markAllAcknowledged *)
| AError (i : nat) (e : Z)               (* threadStats_.setLocalErrorCode *)
| AHeader (i : nat) (n : Z).             (* threadStats_.addHeaderBytes *)

(** The queue without the block taken out. *)
Definition remove_nth {A} (l : list A) (j : nat) : list A := firstn j l ++ skipn (S j) l.
Definition nthd {A} (l : list A) (i : nat) : option A := nth_error l i.

Definition upd_thread (w : sender) (i : nat) (q : list hsrc) (fl : option hsrc) (hi : history)
  (ts : stats) (failed : list hsrc) : sender :=
  {| sn_queue := q; sn_flight := set_nth (sn_flight w) i fl;
     sn_hist := set_nth (sn_hist w) i hi; sn_stats := set_nth (sn_stats w) i ts;
     sn_failed := failed |}.

(** DirectorySourceQueue::getNextSource, util/DirectorySourceQueue.cpp:679-740:
    the block taken out is opened; one that cannot be opened is recorded as
    failed. [None]: the action is not possible. *)
Definition apply_ckpt (w : sender) (i : nat) (fl : option hsrc)
  (r : outcome (Z * history * stats * list hsrc)) : option (outcome sender) :=
  match r with
  | Ret (_, hi', ts', ret) =>
      Some (Ret (upd_thread w i (sn_queue w ++ ret) fl hi' ts' (sn_failed w)))
  | Crash => Some Crash
  | Undef => Some Undef
  end.

Definition sn_step (w : sender) (a : sact) : option (outcome sender) :=
  match a with
  | ADiscover s =>
      Some (Ret {| sn_queue := sn_queue w ++ [newSource s]; sn_flight := sn_flight w;
                   sn_hist := sn_hist w; sn_stats := sn_stats w; sn_failed := sn_failed w |})
  | ATake i j opened =>
      match nthd (sn_flight w) i, nthd (sn_hist w) i, nthd (sn_stats w) i, nthd (sn_queue w) j with
      | Some None, Some hi, Some ts, Some h =>
          let q' := remove_nth (sn_queue w) j in
          let '(e, h') := openSource opened h in
          if e =? OK then Some (Ret (upd_thread w i q' (Some h') hi ts (sn_failed w)))
          else Some (Ret (upd_thread w i q' None hi ts (sn_failed w ++ [h'])))
      | _, _, _, _ => None
      end
  | ASend i r =>
      match nthd (sn_flight w) i, nthd (sn_hist w) i, nthd (sn_stats w) i with
      | Some (Some h), Some hi, Some ts =>
          let t := sendStats h r in
          let '(hi', ts', back) := addSource hi (stats_add ts t) (addTransferStats h t) in
          Some (Ret (upd_thread w i
                       (sn_queue w ++ match back with Some b => [b] | None => [] end)
                       None hi' ts' (sn_failed w)))
      | _, _, _ => None
      end
  | ALocal i c =>
      match nthd (sn_flight w) i, nthd (sn_hist w) i, nthd (sn_stats w) i with
      | Some None, Some hi, Some ts => apply_ckpt w i None (setCheckpoint hi ts c false)
      | _, _, _ => None
      end
  | AGlobal i c =>
      match nthd (sn_flight w) i, nthd (sn_hist w) i, nthd (sn_stats w) i with
      | Some fl, Some hi, Some ts => apply_ckpt w i fl (setCheckpoint hi ts c true)
      | _, _, _ => None
      end
  | AReturn i =>
      match nthd (sn_flight w) i, nthd (sn_hist w) i, nthd (sn_stats w) i with
      | Some None, Some hi, Some ts => apply_ckpt w i None (returnUnacked hi ts)
      | _, _, _ => None
      end
  | AAckAll i =>
      match nthd (sn_flight w) i, nthd (sn_hist w) i, nthd (sn_stats w) i with
      | Some None, Some hi, Some ts =>
          Some (Ret (upd_thread w i (sn_queue w) None (markAllAcknowledged hi) ts (sn_failed w)))
      | _, _, _ => None
      end
  | AError i e =>
      match nthd (sn_flight w) i, nthd (sn_hist w) i, nthd (sn_stats w) i with
      | Some fl, Some hi, Some ts =>
          Some (Ret (upd_thread w i (sn_queue w) fl hi (setLocalErrorCode ts e) (sn_failed w)))
      | _, _, _ => None
      end
  | AHeader i n =>
      match nthd (sn_flight w) i, nthd (sn_hist w) i, nthd (sn_stats w) i with
      | Some fl, Some hi, Some ts =>
          Some (Ret (upd_thread w i (sn_queue w) fl hi (addHeaderBytes ts n) (sn_failed w)))
      | _, _, _ => None
      end
  end.

(** A run: every action possible and none crashing. *)
Fixpoint sn_run (w : sender) (l : list sact) : option (outcome sender) :=
  match l with
  | [] => Some (Ret w)
  | a :: r => match sn_step w a with
              | Some (Ret w') => sn_run w' r
              | o => o
              end
  end.

(** Sender::finish, Sender.cpp:193-228, with full reporting: the statistics
    given to the report for each thread (taken before sources are returned,
    lines 193-196), then acknowledge-all or return, pop and validate. [acked]:
    some thread's error code is OK. Result: (thread statistics in the report,
    transferred, failed, thread statistics after the returns). *)
Fixpoint finish_hists (acked : bool) (his : list history) (tss : list stats)
  : outcome (list stats * list stats * list hsrc) :=
  match his, tss with
  | hi :: his', ts :: tss' =>
      obind (if acked then Ret (OK, markAllAcknowledged hi, ts, []) else returnUnacked hi ts)
        (fun '(_, hi1, ts1, ret) =>
      obind (popAcked hi1) (fun '(st, _) =>
      obind (finish_hists acked his' tss') (fun '(sts, tss1, ret1) =>
      Ret (st ++ sts, ts1 :: tss1, ret ++ ret1))))
  | _, _ => Ret ([], [], [])
  end.
Definition finish (w : sender) : outcome (list stats * list stats * list stats * list stats) :=
  let report := sn_stats w in
  let acked := existsb (fun t => getErrorCode t =? OK) report in
  obind (finish_hists acked (sn_hist w) (sn_stats w)) (fun '(transferred, threads, ret) =>
  let failed := map h_st (sn_failed w ++ sn_queue w ++ ret) in
  obind (validateTransferStats transferred failed threads) (fun _ =>
  Ret (report, transferred, failed, threads))).
