(** TransferStats: the counters kept per source, per thread and per transfer,
    and error codes. The optional RWSpinLock makes each method atomic; it is not
    modelled. Counters are mathematical integers (int64_t in the code). *)
From Verif Require Export Model.SourceQueue.

(** enum ErrorCode, ErrorCodes.h:57-98: codes are positions in the list. *)
Definition OK : Z := 0.
Definition ERROR : Z := 1.
Definition ABORT : Z := 2.
Definition CONN_ERROR : Z := 3.
Definition CONN_ERROR_RETRYABLE : Z := 4.
Definition SOCKET_READ_ERROR : Z := 5.
Definition SOCKET_WRITE_ERROR : Z := 6.
Definition BYTE_SOURCE_READ_ERROR : Z := 7.
Definition FILE_WRITE_ERROR : Z := 8.
Definition MEMORY_ALLOCATION_ERROR : Z := 9.
Definition PROTOCOL_ERROR : Z := 10.
Definition VERSION_MISMATCH : Z := 11.
Definition ID_MISMATCH : Z := 12.
Definition CHECKSUM_MISMATCH : Z := 13.
Definition RESOURCE_NOT_FOUND : Z := 14.
Definition ABORTED_BY_APPLICATION : Z := 15.
Definition VERSION_INCOMPATIBLE : Z := 16.
Definition NOT_FOUND : Z := 17.
Definition QUOTA_EXCEEDED : Z := 18.
Definition FEWER_PORTS : Z := 19.
Definition URI_PARSE_ERROR : Z := 20.
Definition INCONSISTENT_DIRECTORY : Z := 21.
Definition INVALID_LOG : Z := 22.
Definition INVALID_CHECKPOINT : Z := 23.
Definition NO_PROGRESS : Z := 24.
Definition TRANSFER_LOG_ACQUIRE_ERROR : Z := 25.
Definition WDT_TIMEOUT : Z := 26.
Definition UNEXPECTED_CMD_ERROR : Z := 27.
Definition ENCRYPTION_ERROR : Z := 28.
Definition ALREADY_EXISTS : Z := 29.
Definition GLOBAL_CHECKPOINT_ABORT : Z := 30.
Definition INVALID_REQUEST : Z := 31.
Definition SENDER_START_TIMED_OUT : Z := 32.
Definition AUTH_ERROR : Z := 33.

(** getMoreInterestingError, ErrorCodes.cpp:25-27. *)
Definition getMoreInterestingError (e1 e2 : Z) : Z := Z.max e1 e2.

(** class TransferStats, Reporting.h:58-101; [st_id] is id_. *)
Record stats := {
  st_hdr : Z;        (* headerBytes_ *)
  st_data : Z;       (* dataBytes_ *)
  st_effHdr : Z;     (* effectiveHeaderBytes_ *)
  st_effData : Z;    (* effectiveDataBytes_ *)
  st_files : Z;      (* numFiles_ *)
  st_blocks : Z;     (* numBlocks_ *)
  st_failed : Z;     (* failedAttempts_ *)
  st_blocksSend : Z; (* numBlocksSend_ *)
  st_senderBytes : Z;(* totalSenderBytes_ *)
  st_local : Z;      (* localErrCode_ *)
  st_remote : Z;     (* remoteErrCode_ *)
  st_id : list Z;    (* id_ *)
  st_enc : Z;        (* encryptionType_ *)
  st_tls : bool      (* tls_ *)
}.

(** TransferStats::TransferStats, Reporting.h:58-129. *)
Definition stats_new : stats :=
  {| st_hdr := 0; st_data := 0; st_effHdr := 0; st_effData := 0; st_files := 0;
     st_blocks := 0; st_failed := 0; st_blocksSend := -1; st_senderBytes := -1;
     st_local := OK; st_remote := OK; st_id := []; st_enc := 0; st_tls := false |}.

(** TransferStats::getErrorCode, Reporting.h:226-229. *)
Definition getErrorCode (s : stats) : Z := getMoreInterestingError (st_local s) (st_remote s).

(** The counters updated together by the methods below. *)
Definition st_bump (s : stats) (hdr data effHdr effData blocks failed local : Z) : stats :=
  {| st_hdr := st_hdr s + hdr; st_data := st_data s + data;
     st_effHdr := st_effHdr s + effHdr; st_effData := st_effData s + effData;
     st_files := st_files s; st_blocks := st_blocks s + blocks;
     st_failed := st_failed s + failed; st_blocksSend := st_blocksSend s;
     st_senderBytes := st_senderBytes s; st_local := local;
     st_remote := st_remote s; st_id := st_id s; st_enc := st_enc s; st_tls := st_tls s |}.

(** Reporting.h:249-258, 273-276, 279-282, 303-329. *)
Definition addDataBytes (s : stats) (n : Z) := st_bump s 0 n 0 0 0 0 (st_local s).
Definition addHeaderBytes (s : stats) (n : Z) := st_bump s n 0 0 0 0 0 (st_local s).
Definition incrFailedAttempts (s : stats) := st_bump s 0 0 0 0 0 1 (st_local s).
Definition setLocalErrorCode (s : stats) (e : Z) := st_bump s 0 0 0 0 0 0 e.
Definition incrNumBlocks (s : stats) := st_bump s 0 0 0 0 1 0 (st_local s).
Definition decrNumBlocks (s : stats) := st_bump s 0 0 0 0 (-1) 0 (st_local s).
Definition addEffectiveBytes (s : stats) (h d : Z) := st_bump s 0 0 h d 0 0 (st_local s).
Definition subtractEffectiveBytes (s : stats) (h d : Z) := st_bump s 0 0 (- h) (- d) 0 0 (st_local s).

(** Reporting.h:285-288, 297-300, 261-270, 331-344. *)
Definition setRemoteErrorCode (s : stats) (e : Z) : stats :=
  {| st_hdr := st_hdr s; st_data := st_data s; st_effHdr := st_effHdr s;
     st_effData := st_effData s; st_files := st_files s; st_blocks := st_blocks s;
     st_failed := st_failed s; st_blocksSend := st_blocksSend s;
     st_senderBytes := st_senderBytes s; st_local := st_local s; st_remote := e;
     st_id := st_id s; st_enc := st_enc s; st_tls := st_tls s |}.
Definition setNumFiles (s : stats) (n : Z) : stats :=
  {| st_hdr := st_hdr s; st_data := st_data s; st_effHdr := st_effHdr s;
     st_effData := st_effData s; st_files := n; st_blocks := st_blocks s;
     st_failed := st_failed s; st_blocksSend := st_blocksSend s;
     st_senderBytes := st_senderBytes s; st_local := st_local s; st_remote := st_remote s;
     st_id := st_id s; st_enc := st_enc s; st_tls := st_tls s |}.
Definition setSenderTotals (s : stats) (blocks bytes : Z) : stats :=
  {| st_hdr := st_hdr s; st_data := st_data s; st_effHdr := st_effHdr s;
     st_effData := st_effData s; st_files := st_files s; st_blocks := st_blocks s;
     st_failed := st_failed s; st_blocksSend := blocks;
     st_senderBytes := bytes; st_local := st_local s; st_remote := st_remote s;
     st_id := st_id s; st_enc := st_enc s; st_tls := st_tls s |}.

(** TransferStats::operator+=, Reporting.cpp:23-63. *)
Definition stats_add (a b : stats) : stats :=
  let mism x y := negb (x =? -1) && (negb (y =? -1) && negb (x =? y)) in
  let l1 := if mism (st_blocksSend a) (st_blocksSend b) then ERROR else st_local a in
  let l2 := if mism (st_senderBytes a) (st_senderBytes b) then ERROR else l1 in
  let ok := (st_local b =? OK) && (st_remote b =? OK) in
  {| st_hdr := st_hdr a + st_hdr b;
     st_data := st_data a + st_data b;
     st_effHdr := st_effHdr a + st_effHdr b;
     st_effData := st_effData a + st_effData b;
     st_files := st_files a + st_files b;
     st_blocks := st_blocks a + st_blocks b;
     st_failed := st_failed a + st_failed b;
     st_blocksSend := if st_blocksSend a =? -1 then st_blocksSend b else st_blocksSend a;
     st_senderBytes := if st_senderBytes a =? -1 then st_senderBytes b else st_senderBytes a;
     st_local := getMoreInterestingError l2 (st_local b);
     st_remote := getMoreInterestingError (st_remote a) (st_remote b);
     st_id := st_id a;
     st_enc := if ok then st_enc b else st_enc a;
     st_tls := if ok then st_tls b else st_tls a |}.
