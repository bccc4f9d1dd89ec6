(** Receivers, each a process, that share a directory and so its transfer log: who may work
    in the directory. TransferLogManager.cpp: openLog (247-288), checkLog and close
    (314-351), unlink and renameBuggyLog (550-568), as Receiver::init (Receiver.cpp:145-152)
    and fixAndCloseTransferLog (514-556) call them, one system call at a time.

    Simplified: of a log's content only whether parsing it gives INVALID_LOG; what
    compactLog and the writer thread do is elsewhere (TransferLog, LogSession). *)
From Coq Require Export ZArith List Bool.
Import ListNotations.
Open Scope Z_scope.

(** Where a receiver is. *)
Inductive lkpc :=
| KOpen      (* open(O_RDWR), 253 *)
| KCreate    (* open(O_CREAT | O_EXCL), 261, and close *)
| KReopen    (* open(O_RDWR), 270 *)
| KFlock     (* flock(LOCK_EX | LOCK_NB), 279 *)
| KParse     (* parseVerifyAndFix, 587-610 *)
| KWork      (* the transfer, holding the log *)
| KCheck     (* stat and fstat in checkLog, called by close, 314-345 *)
| KClose     (* ::close, 345 *)
| KLoose     (* the transfer after the log was found invalid and closed, 596-600 *)
| KRemove    (* rename, 562, of an invalid log; then unlink, 554 *)
| KDone      (* finished *)
| KError     (* init() returned TRANSFER_LOG_ACQUIRE_ERROR *)
| KExit      (* exit() in checkLog *)
| KDead.     (* killed *)
(** fd_, as the file (inode) it is open on; whether it has the lock; whether the log was
    found invalid; !keep_transfer_log, Receiver.cpp:552; how its transfer will end, 544. *)
Record lkproc := { lk_pc : lkpc; lk_fd : option Z; lk_locked : bool; lk_invalid : bool; lk_unlinks : bool; lk_success : bool }.
(** The receivers and the directory: the file called .wdt.log, the next new file, the files
    with invalid content. *)
Record lkstate := { lk_name : option Z; lk_next : Z; lk_bad : list Z; lk_procs : list lkproc }.

(** A descriptor opened; the process goes on at [pc] (no single place in the code). *)
Definition lk_go (p : lkproc) (pc : lkpc) : lkproc :=
  {| lk_pc := pc; lk_fd := lk_fd p; lk_locked := lk_locked p; lk_invalid := lk_invalid p; lk_unlinks := lk_unlinks p; lk_success := lk_success p |}.
Definition lk_open (p : lkproc) (i : Z) : lkproc :=
  {| lk_pc := KFlock; lk_fd := Some i; lk_locked := false; lk_invalid := lk_invalid p; lk_unlinks := lk_unlinks p; lk_success := lk_success p |}.
Definition lk_shut (p : lkproc) (pc : lkpc) : lkproc :=
  {| lk_pc := pc; lk_fd := None; lk_locked := false; lk_invalid := lk_invalid p; lk_unlinks := lk_unlinks p; lk_success := lk_success p |}.
(** flock(2): another descriptor has the lock of file [i]. *)
Definition lk_taken (s : lkstate) (i : Z) : bool :=
  existsb (fun p => lk_locked p && match lk_fd p with Some j => i =? j | None => false end) (lk_procs s).
(** The name still is this file, checkLog, 320-334. *)
Definition lk_same (s : lkstate) (p : lkproc) : bool :=
  match lk_name s, lk_fd p with Some i, Some j => i =? j | _, _ => false end.

(** One system call of a process; [ok]: it does not fail for reasons not modelled. The name,
    the next new file and the process after it. *)
Definition lk_call (s : lkstate) (p : lkproc) (ok : bool) : option (option Z * Z * lkproc) :=
  let same p' := Some (lk_name s, lk_next s, p') in
  match lk_pc p with
  | KOpen => if ok then match lk_name s with Some i => same (lk_open p i) | None => same (lk_go p KCreate) end
             else same (lk_go p KError)
  | KCreate => match ok, lk_name s with
               | true, None => Some (Some (lk_next s), lk_next s + 1, lk_go p KReopen)
               | _, _ => same (lk_go p KReopen)
               end
  | KReopen => match ok, lk_name s with
               | true, Some i => same (lk_open p i)
               | _, _ => same (lk_go p KError)
               end
  | KFlock => match ok, lk_fd p with
              | true, Some i =>
                  if lk_taken s i then same (lk_go p KCheck)
                  else same {| lk_pc := KParse; lk_fd := lk_fd p; lk_locked := true; lk_invalid := false; lk_unlinks := lk_unlinks p; lk_success := lk_success p |}
              | _, _ => same (lk_go p KCheck)
              end
  | KParse => if existsb (fun i => match lk_fd p with Some j => i =? j | None => false end) (lk_bad s) then
                same {| lk_pc := KCheck; lk_fd := lk_fd p; lk_locked := lk_locked p; lk_invalid := true; lk_unlinks := lk_unlinks p; lk_success := lk_success p |}
              else same (lk_go p KWork)
  | KWork => same (lk_go p KCheck)
  | KCheck => if ok && lk_same s p then same (lk_go p KClose) else same (lk_shut p KExit)
  | KClose => same (lk_shut p (if negb (lk_locked p) then KError
                               else if lk_invalid p then KLoose
                               else if lk_success p && lk_unlinks p then KRemove else KDone))
  | KLoose => same (lk_go p (if lk_success p then KRemove else KDone))
  | KRemove => Some (if ok then None else lk_name s, lk_next s,
                     {| lk_pc := if lk_invalid p && lk_unlinks p then KRemove else KDone; lk_fd := lk_fd p; lk_locked := lk_locked p;
                        lk_invalid := false; lk_unlinks := lk_unlinks p; lk_success := lk_success p |})
  | KDone | KError | KExit | KDead => None
  end.
(** What may happen: a call, the death of a process. *)
Inductive lkev := KStep (i : nat) (ok : bool) | KKill (i : nat).
(** A process replaced in the list (no code). *)
Definition lk_set (l : list lkproc) (i : nat) (p : lkproc) : list lkproc := firstn i l ++ p :: skipn (S i) l.
(** One event. *)
Definition lk_step (s : lkstate) (e : lkev) : option lkstate :=
  match e with
  | KStep i ok =>
      match nth_error (lk_procs s) i with
      | None => None
      | Some p => match lk_call s p ok with
                  | None => None
                  | Some (n, x, p') => Some {| lk_name := n; lk_next := x; lk_bad := lk_bad s; lk_procs := lk_set (lk_procs s) i p' |}
                  end
      end
  | KKill i =>
      match nth_error (lk_procs s) i with
      | None => None
      | Some p => Some {| lk_name := lk_name s; lk_next := lk_next s; lk_bad := lk_bad s; lk_procs := lk_set (lk_procs s) i (lk_shut p KDead) |}
      end
  end.
(** Any number of them. *)
Fixpoint lk_run (s : lkstate) (l : list lkev) : option lkstate :=
  match l with [] => Some s | e :: r => match lk_step s e with Some s' => lk_run s' r | None => None end end.
