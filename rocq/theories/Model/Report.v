(** Final reports (Reporting.cpp) and the parts of WdtBase every transfer uses:
    the abort code and the buffer size (WdtBase.cpp). *)
From Verif Require Export Model.Stats.

(** The loop adding the threads' statistics, Reporting.cpp:118-120 and
    Receiver.cpp:333-336. *)
Definition combine_all (l : list stats) : stats := fold_left stats_add l stats_new.

(** TransferReport::setErrorCode, Reporting.h:435-438. *)
Definition setErrorCode (s : stats) (e : Z) : stats :=
  setRemoteErrorCode (setLocalErrorCode s e) e.

(** Number of different identifiers among the failed sources,
    Reporting.cpp:161-164. *)
Fixpoint distinct (l : list (list Z)) : list (list Z) :=
  match l with
  | [] => []
  | x :: r => let d := distinct r in if existsb (str_eqb x) d then d else x :: d
  end.

(** TransferReport::TransferReport for the sender, Reporting.cpp:102-167: the
    summary. *)
Definition senderReport (failedSources threads : list stats) (failedDirs : list (list Z))
  (totalFileSize numDiscovered : Z) : stats :=
  let summary := combine_all threads in
  let e0 := getErrorCode summary in
  let atLeastOneOk := existsb (fun t => getErrorCode t =? OK) threads in
  let dirsOk := match failedDirs with [] => true | _ => false end in
  let e1 := if dirsOk then e0 else getMoreInterestingError e0 BYTE_SOURCE_READ_ERROR in
  let e2 := fold_left (fun e t => getMoreInterestingError e (getErrorCode t)) failedSources e1 in
  let possiblyOk := dirsOk && match failedSources with [] => true | _ => false end in
  let e3 :=
    if negb (st_effData summary =? totalFileSize)
    then if e2 =? OK then ERROR else e2
    else if negb (e2 =? OK) && possiblyOk && atLeastOneOk then OK else e2 in
  setNumFiles (setErrorCode summary e3)
    (numDiscovered - zlen (distinct (map st_id failedSources))).

(** TransferReport::TransferReport(TransferStats&&) for the receiver,
    Reporting.cpp:193-224. *)
Definition receiverReport (g : stats) : stats :=
  let e := st_local g in
  let e' :=
    if (st_blocksSend g =? -1) || negb (st_blocksSend g =? st_blocks g)
    then getMoreInterestingError e ERROR
    else if negb (st_senderBytes g =? -1) && negb (st_senderBytes g =? st_effData g)
    then getMoreInterestingError e ERROR
    else if negb (e =? OK) && negb (e =? ENCRYPTION_ERROR) then OK else e in
  setLocalErrorCode g e'.

(** Receiver::getTransferReport, Receiver.cpp:332-347, after the transfer
    started. *)
Definition receiverFinal (threads : list stats) : stats := receiverReport (combine_all threads).

(** ** WdtBase *)

(** WdtBase::abort, WdtBase.cpp:31-40, and WdtBase::clearAbort,
    WdtBase.cpp:42-50, on the recorded code; each runs under abortCodeLock_. *)
Inductive abort_op := Abort (code : Z) | ClearAbort.
Definition do_abort_op (cur : Z) (o : abort_op) : Z :=
  match o with
  | Abort c => if (c =? VERSION_MISMATCH) && negb (cur =? OK) then cur else c
  | ClearAbort => if negb (cur =? VERSION_MISMATCH) then cur else OK
  end.
Definition run_abort_ops (cur : Z) (l : list abort_op) : Z := fold_left do_abort_op l cur.

(** WdtBase::getCurAbortCode, WdtBase.cpp:56-64; [ext]: the external checker
    asks to abort. *)
Definition getCurAbortCode (ext : bool) (cur : Z) : Z :=
  if ext then ABORTED_BY_APPLICATION else cur.

(** kDiskBlockSize, util/CommonImpl.h:17. *)
Definition kDiskBlockSize : Z := 4096.

(** WdtBase::checkAndUpdateBufferSize, WdtBase.cpp:118-135; division truncates
    but the operands are not negative; options_.buffer_size is an int32_t
    (WdtOptions.h:114). *)
Definition checkAndUpdateBufferSize (configured : Z) : Z :=
  let b1 := if configured <? kMaxHeader then kMaxHeader else configured in
  let b2 := if negb (b1 mod kDiskBlockSize =? 0)
            then (b1 + kDiskBlockSize - 1) / kDiskBlockSize * kDiskBlockSize else b1 in
  to_i32 b2.
