(** The life of a Sender or Receiver object: start(), finish() and the threads behind
    them, for any number of callers. The object is used as by Sender::transferAsync and
    Receiver::transferAsync (isJoinable_); [forever] below is Receiver::runForever. What
    the threads do, and reads of members while start() writes them, are left out. *)
From Verif Require Export Model.QueueMonitor Model.Report.

(** TransferStatus, WdtBase.h:144-149. *)
Inductive status := NotStarted | Ongoing | Finished | ThreadsJoined.
(** A thread: no std::thread yet, running, past executeAtEnd (SenderThread.cpp:995,
    ReceiverThread.cpp:1004), ended but to be joined, joined. *)
Inductive th := TNone | TRun | TPast | TDone | TJoined.

(** [lc_recv]: a Receiver; [lc_n]: the number of ports; [lc_two]: options_.two_phases;
    [lc_prog]: the thread reporting progress is made (Sender.cpp:332-333,
    Receiver.cpp:479); [lc_early]: it returns at once (Receiver.cpp:381-384). *)
Record lcfg := { lc_recv : bool; lc_n : nat; lc_two : bool; lc_prog : bool; lc_early : bool }.

(** Where a caller is: not in a call; in start(): before the check, before setting the
    status (Receiver), making the queue and the threads' objects, starting and joining
    the thread reading directories, starting thread k, starting the one reporting
    progress; in finish(): before the lock, before reading the status, joining thread k,
    joining the one reading directories, setting the status, joining the one reporting
    progress. *)
Inductive pc :=
| CIdle
| SCheck | SSet | SMake | SDir | SDirJoin | SWork (k : nat) | SProg
| FLock | FRead | FWork (k : nat) | FDir | FSet | FProg.

(** What a call gave: a code, or the report of a transfer that was not started, the
    report made after joining, or one made again. *)
Inductive res := RStart (code : Z) | RNot | RFirst | RAgain.

Record life := {
  lf_st : status; lf_work : list th; lf_dir : th; lf_prog : th; lf_lock : option nat;
  lf_pcs : list pc; lf_log : list (nat * res)
}.
Definition lf_new (cfg : lcfg) (callers : nat) : life :=
  {| lf_st := NotStarted; lf_work := if lc_recv cfg then repeat TNone (lc_n cfg) else []; lf_dir := TNone;
     lf_prog := TNone; lf_lock := None; lf_pcs := repeat CIdle callers; lf_log := [] |}.

Definition w_st l s := {| lf_st := s; lf_work := lf_work l; lf_dir := lf_dir l; lf_prog := lf_prog l; lf_lock := lf_lock l; lf_pcs := lf_pcs l; lf_log := lf_log l |}.
Definition w_work l w := {| lf_st := lf_st l; lf_work := w; lf_dir := lf_dir l; lf_prog := lf_prog l; lf_lock := lf_lock l; lf_pcs := lf_pcs l; lf_log := lf_log l |}.
Definition w_dir l d := {| lf_st := lf_st l; lf_work := lf_work l; lf_dir := d; lf_prog := lf_prog l; lf_lock := lf_lock l; lf_pcs := lf_pcs l; lf_log := lf_log l |}.
Definition w_prog l p := {| lf_st := lf_st l; lf_work := lf_work l; lf_dir := lf_dir l; lf_prog := p; lf_lock := lf_lock l; lf_pcs := lf_pcs l; lf_log := lf_log l |}.
Definition w_lock l k := {| lf_st := lf_st l; lf_work := lf_work l; lf_dir := lf_dir l; lf_prog := lf_prog l; lf_lock := k; lf_pcs := lf_pcs l; lf_log := lf_log l |}.
Definition w_pc l c p := {| lf_st := lf_st l; lf_work := lf_work l; lf_dir := lf_dir l; lf_prog := lf_prog l; lf_lock := lf_lock l; lf_pcs := set_nth (lf_pcs l) c p; lf_log := lf_log l |}.
(** The call of [c] returns [r]. *)
Definition w_ret l c r := {| lf_st := lf_st l; lf_work := lf_work l; lf_dir := lf_dir l; lf_prog := lf_prog l; lf_lock := lf_lock l; lf_pcs := set_nth (lf_pcs l) c CIdle; lf_log := (c, r) :: lf_log l |}.

(** std::thread::join: [None] while it waits; joining what cannot be joined throws and
    nothing catches it. *)
Definition join (t : th) : option (outcome th) :=
  match t with
  | TNone | TJoined => Some Crash
  | TRun | TPast => None
  | TDone => Some (Ret TJoined)
  end.
(** A std::thread is assigned a new thread: ends the process if the old one is not
    joined. *)
Definition spawn (t : th) : outcome th :=
  match t with TNone | TJoined => Ret TRun | _ => Crash end.

Definition then_ (o : option (outcome th)) (f : th -> life) : option (outcome life) :=
  match o with
  | None => None
  | Some (Ret t) => Some (Ret (f t))
  | Some Crash => Some Crash
  | Some Undef => Some Undef
  end.

(** One step of a caller; [None]: it waits. start(): Sender.cpp:284-369,
    Receiver.cpp:447-487; finish(): Sender.cpp:165-253, Receiver.cpp:287-330;
    WdtThread::startThread and finish, WdtThread.cpp:27-47. *)
Definition caller_step (cfg : lcfg) (l : life) (c : nat) (p : pc) : option (outcome life) :=
  match p with
  | CIdle => None
  | SCheck =>
      match lf_st l with
      | NotStarted => Some (Ret (if lc_recv cfg then w_pc l c SSet else w_pc (w_st l Ongoing) c SMake))
      | _ => Some (if lc_recv cfg then Crash else Ret (w_ret l c (RStart ALREADY_EXISTS)))
      end
  | SSet => Some (Ret (w_pc (w_st l Ongoing) c (SWork 0)))
  | SMake => Some (Ret (w_pc (w_work l (repeat TNone (lc_n cfg))) c SDir))
  | SDir => then_ (Some (spawn (lf_dir l))) (fun t => w_pc (w_dir l t) c (if lc_two cfg then SDirJoin else SWork 0))
  | SDirJoin => then_ (join (lf_dir l)) (fun t => w_pc (w_dir l t) c (SWork 0))
  | SWork k =>
      match nth_error (lf_work l) k with
      | Some TNone => Some (Ret (w_pc (w_work l (set_nth (lf_work l) k TRun)) c (SWork (S k))))
      | Some _ => Some Crash
      | None => Some (Ret (w_pc l c SProg))
      end
  | SProg =>
      if lc_prog cfg then then_ (Some (spawn (lf_prog l))) (fun t => w_ret (w_prog l t) c (RStart OK))
      else Some (Ret (w_ret l c (RStart OK)))
  | FLock => match lf_lock l with None => Some (Ret (w_pc (w_lock l (Some c)) c FRead)) | Some _ => None end
  | FRead =>
      match lf_st l with
      | NotStarted => Some (Ret (w_ret (w_lock l None) c RNot))
      | ThreadsJoined => Some (Ret (w_ret (w_lock l None) c RAgain))
      | _ => Some (Ret (w_pc l c (FWork 0)))
      end
  | FWork k =>
      match nth_error (lf_work l) k with
      | Some TNone | Some TJoined => Some (Ret (w_pc l c (FWork (S k))))
      | Some t => then_ (join t) (fun t' => w_pc (w_work l (set_nth (lf_work l) k t')) c (FWork (S k)))
      | None => Some (Ret (w_pc l c (if lc_recv cfg || lc_two cfg then FSet else FDir)))
      end
  | FDir => then_ (join (lf_dir l)) (fun t => w_pc (w_dir l t) c FSet)
  | FSet => Some (Ret (w_pc (w_st l ThreadsJoined) c FProg))
  | FProg =>
      if lc_prog cfg then then_ (join (lf_prog l)) (fun t => w_ret (w_lock (w_prog l t) None) c RFirst)
      else Some (Ret (w_ret (w_lock l None) c RFirst))
  end.

(** The end of the transfer has come for this thread or the thread is over. *)
Definition past (t : th) : bool := match t with TPast | TDone | TJoined => true | _ => false end.

(** What can happen: a caller calls start() or finish(), or goes on; a thread gets to
    executeAtEnd and, if it is the last, sets the status (Sender.cpp:19-28,
    Receiver.cpp:96-97); a thread ends. The thread reporting progress ends once it
    sees that the others are joined, Sender.cpp:431-437 and Receiver.cpp:396-403. *)
Inductive move := MStart (c : nat) | MFinish (c : nat) | MGo (c : nat) | MPast (i : nat) | MDone (i : nat) | MDir | MProg.
Definition lmove (cfg : lcfg) (l : life) (m : move) : option (outcome life) :=
  match m with
  | MStart c => match nth_error (lf_pcs l) c with Some CIdle => Some (Ret (w_pc l c SCheck)) | _ => None end
  | MFinish c => match nth_error (lf_pcs l) c with Some CIdle => Some (Ret (w_pc l c FLock)) | _ => None end
  | MGo c => match nth_error (lf_pcs l) c with Some p => caller_step cfg l c p | None => None end
  | MPast i =>
      match nth_error (lf_work l) i with
      | Some TRun =>
          let w := set_nth (lf_work l) i TPast in
          Some (Ret (w_work (if forallb past w then w_st l Finished else l) w))
      | _ => None
      end
  | MDone i => match nth_error (lf_work l) i with Some TPast => Some (Ret (w_work l (set_nth (lf_work l) i TDone))) | _ => None end
  | MDir => match lf_dir l with TRun => Some (Ret (w_dir l TDone)) | _ => None end
  | MProg =>
      match lf_prog l, lf_st l with
      | TRun, ThreadsJoined => Some (Ret (w_prog l TDone))
      | TRun, _ => if lc_early cfg then Some (Ret (w_prog l TDone)) else None
      | _, _ => None
      end
  end.
(** Some sequence of moves, each possible where it happens. *)
Fixpoint lrun (cfg : lcfg) (l : life) (ms : list move) : option (outcome life) :=
  match ms with
  | [] => Some (Ret l)
  | m :: r =>
      match lmove cfg l m with
      | Some (Ret l') => lrun cfg l' r
      | o => o
      end
  end.

(** ** Receiver::runForever, Receiver.cpp:359-374 and the loop in start(),
    Receiver.cpp:460-478, run by one caller *)
Inductive fpc := VStart (k : nat) | VJoin (k : nat) | VReset.
(** [fv_round]: the number of times the threads were reset. *)
Record forever := { fv_st : status; fv_work : list th; fv_pc : fpc; fv_round : nat }.
Definition fv_new (n : nat) : forever :=
  {| fv_st := Ongoing; fv_work := repeat TNone n; fv_pc := VStart 0; fv_round := 0 |}.
Inductive fmove := VGo | VPast (i : nat) | VDone (i : nat).
Definition vmove (v : forever) (m : fmove) : option (outcome forever) :=
  match m with
  | VGo =>
      match fv_pc v with
      | VStart k =>
          match nth_error (fv_work v) k with
          | Some TNone => Some (Ret {| fv_st := fv_st v; fv_work := set_nth (fv_work v) k TRun; fv_pc := VStart (S k); fv_round := fv_round v |})
          | Some _ => Some Crash
          | None => Some (Ret {| fv_st := fv_st v; fv_work := fv_work v; fv_pc := VJoin 0; fv_round := fv_round v |})
          end
      | VJoin k =>
          match nth_error (fv_work v) k with
          | Some TDone | Some TNone => Some (Ret {| fv_st := fv_st v; fv_work := set_nth (fv_work v) k TNone; fv_pc := VJoin (S k); fv_round := fv_round v |})
          | Some _ => None
          | None => Some (Ret {| fv_st := fv_st v; fv_work := fv_work v; fv_pc := VReset; fv_round := fv_round v |})
          end
      | VReset => Some (Ret {| fv_st := NotStarted; fv_work := fv_work v; fv_pc := VStart 0; fv_round := S (fv_round v) |})
      end
  | VPast i =>
      match nth_error (fv_work v) i with
      | Some TRun =>
          let w := set_nth (fv_work v) i TPast in
          let last := match fv_pc v with
                      | VStart k => Nat.leb (length w) k && forallb past w
                      | VJoin k => forallb past (skipn k w)
                      | VReset => false
                      end in
          Some (Ret {| fv_st := if last then Finished else fv_st v; fv_work := w; fv_pc := fv_pc v; fv_round := fv_round v |})
      | _ => None
      end
  | VDone i =>
      match nth_error (fv_work v) i with
      | Some TPast => Some (Ret {| fv_st := fv_st v; fv_work := set_nth (fv_work v) i TDone; fv_pc := fv_pc v; fv_round := fv_round v |})
      | _ => None
      end
  end.
