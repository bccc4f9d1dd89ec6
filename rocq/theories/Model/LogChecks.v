(** The transfer log when a write to it fails: the functions of TransferLogManager that
    write single entries (invalidateDirectory 452-470, writeLogHeader 472-493) and those of
    Receiver that call them, up to the checks (WDT_CHECK) that end the process.

    [w]: what becomes of a write; [None]: it succeeds; [Some k]: it stops after [k] bytes (or
    one byte less than asked for). The entries of the writer thread, the compaction and what
    checkLog finds are elsewhere (LogSession, TransferLog, LogLock). *)
From Verif Require Export Model.LogSession.
Open Scope Z_scope.

(** A check fails and leaves this in the file; or the function returns. *)
Inductive checked A := Goes (a : A) | Stops (data : list Z).
Arguments Goes {A} _.
Arguments Stops {A} _.
Definition cbind {A B} (x : outcome (checked A)) (f : A -> outcome (checked B)) : outcome (checked B) :=
  obind x (fun c => match c with Goes a => f a | Stops d => Ret (Stops d) end).
Definition goes {A} (x : outcome A) : outcome (checked A) := obind x (fun a => Ret (Goes a)).

(** A write of these bytes that stops early, and closeLog (TransferLogManager.cpp:353-361). *)
Definition closed_after (k : nat) (bs : list Z) (m : tlm) : tlm :=
  tm_closed (tm_with_file m (fwrite (tm_file m) (firstn (Nat.min k (length bs - 1)) bs))).

(** invalidateDirectory, TransferLogManager.cpp:452-470: after a failed write the log is
    closed, and then fsyncLog (445-450) checks that it is open. *)
Definition invalidateDirectoryW (w : option nat) (ts : Z) (m : tlm) : outcome (checked tlm) :=
  match w, tm_open m with
  | Some k, true =>
      obind (encodeDirectoryInvalidationEntry ts entry_buf kMaxEntryLength) (fun e =>
      Ret (Stops (lf_data (tm_file (closed_after k (slice (snd e) 0 (fst e)) m)))))
  | _, _ => goes (invalidateDirectory ts m)
  end.
(** writeLogHeader, TransferLogManager.cpp:472-493: after a failed write the log is closed
    and the status stays. *)
Definition writeLogHeaderW (w : option nat) (ts : Z) (m : tlm) : outcome tlm :=
  match w, tm_open m with
  | Some k, true =>
      obind (encodeLogHeader ts entry_buf kMaxEntryLength (tm_rid m) (tm_ip m) (tm_config m)) (fun e =>
      if fst e <? 0 then writeLogHeader ts m
      else Ret (closed_after k (slice (snd e) 0 (fst e)) m))
  | _, _ => writeLogHeader ts m
  end.
(** verifySenderIp, TransferLogManager.cpp:420-443. *)
Definition verifySenderIpW (w : option nat) (ts : Z) (disabled : bool) (cur : list Z) (m : tlm) : outcome (checked tlm) :=
  match w with
  | None => goes (obind (verifySenderIp ts disabled cur m) (fun r => Ret (snd r)))
  | Some _ =>
      if negb (tm_open m) || disabled || (zlen (tm_ip m) =? 0) || str_eqb (tm_ip m) cur
      then goes (obind (verifySenderIp ts disabled cur m) (fun r => Ret (snd r)))
      else invalidateDirectoryW w ts m
  end.
(** addTransferLogHeader, Receiver.cpp:489-512. *)
Definition addTransferLogHeaderW (wi wh : option nat) (ts : Z) (dirTree block resuming : bool) (m : tlm) : outcome (checked tlm) :=
  cbind (if negb resuming || (dirTree && block) then invalidateDirectoryW wi ts m else Ret (Goes m)) (fun m1 =>
  if negb dirTree || negb (tm_status m1 =? INCONSISTENT_DIRECTORY) then goes (writeLogHeaderW wh ts m1) else Ret (Goes m1)).
(** fixAndCloseTransferLog up to closeLog, Receiver.cpp:514-542: the bytes in the file. *)
Definition fixAndCloseW (w : option nat) (ts : Z) (dirTree success : bool) (m : tlm) : outcome (checked (list Z)) :=
  if success && (tm_status m =? INCONSISTENT_DIRECTORY) then
    if dirTree then goes (obind (writeLogHeaderW w ts m) (fun m' => Ret (lf_data (tm_file m'))))
    else Ret (Stops (lf_data (tm_file m)))
  else Ret (Goes (lf_data (tm_file m))).

(** How a session goes: the options, the sender; whether a file or a request for the chunks
    comes ([Some (block mode, the sender resumes)]); whether the transfer succeeds. *)
Record lscase := { sc_dirTree : bool; sc_disabled : bool; sc_peer : list Z; sc_header : option (bool * bool); sc_success : bool }.
(** What becomes of the writes: verifySenderIp's, the two of addTransferLogHeader, the last. *)
Record lswrites := { wr_ip : option nat; wr_inval : option nat; wr_header : option nat; wr_last : option nat }.
(** From startNewGlobalSession (Receiver.cpp:80-87) to the end (318). *)
Definition checks_session (c : lscase) (w : lswrites) (ts : Z) (m : tlm) : outcome (checked (list Z)) :=
  cbind (verifySenderIpW (wr_ip w) ts (sc_disabled c) (sc_peer c) m) (fun m1 =>
  cbind (match sc_header c with
         | Some (block, resuming) => addTransferLogHeaderW (wr_inval w) (wr_header w) ts (sc_dirTree c) block resuming m1
         | None => Ret (Goes m1)
         end) (fun m2 =>
  fixAndCloseW (wr_last w) ts (sc_dirTree c) (sc_success c) m2)).
