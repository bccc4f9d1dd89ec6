(** Thread coordination primitives: util/ThreadsController.h and .cpp. Each
    primitive is a monitor shared by a list of threads; one step is one stretch
    of code executed while holding its mutex. The scheduler is arbitrary, and so
    is the choice of the thread that notify_one wakes.

    Not modelled: destruction of the primitives and ThreadsController::reset
    (they happen only when no thread runs, Receiver.cpp:459-476). *)
From Verif Require Export Model.QueueMonitor.

(** ---- Barrier ---- *)

(** Where a registered thread is with respect to one barrier. *)
Inductive bst :=
| BOut        (* has not called execute() *)
| BAsleep     (* in cv_.wait (ThreadsController.cpp:125), not notified *)
| BWoken      (* notified, about to test [isComplete_] again *)
| BPassed     (* returned from execute() *)
| BGone.      (* deregistered, ThreadsController.cpp:154-164 *)

(** Members of Barrier, ThreadsController.h:183-197, and the threads. *)
Record barrier := {
  b_hits : Z;
  b_threads : Z;
  b_complete : bool;
  b_st : list bst
}.
Definition barrier_init (n : nat) : barrier :=
  {| b_hits := 0; b_threads := Z.of_nat n; b_complete := false; b_st := repeat BOut n |}.

Definition b_wake (t : bst) : bst := match t with BAsleep => BWoken | _ => t end.

(** checkForFinish, ThreadsController.cpp:107-115. *)
Definition checkForFinish (b : barrier) : outcome (bool * barrier) :=
  if b_threads b <? b_hits b then Crash
  else if b_hits b =? b_threads b
  then Ret (true, {| b_hits := b_hits b; b_threads := b_threads b; b_complete := true;
                     b_st := map b_wake (b_st b) |})
  else Ret (b_complete b, b).
Definition b_set (b : barrier) (i : nat) (t : bst) : barrier :=
  {| b_hits := b_hits b; b_threads := b_threads b; b_complete := b_complete b;
     b_st := set_nth (b_st b) i t |}.

(** execute() up to the first wait, ThreadsController.cpp:117-125, by thread [i]. *)
Definition barrier_execute (b : barrier) (i : nat) : outcome barrier :=
  if b_complete b then Crash
  else obind (checkForFinish {| b_hits := b_hits b + 1; b_threads := b_threads b;
                                b_complete := b_complete b; b_st := b_st b |}) (fun r =>
  let '(done, b') := r in
  Ret (b_set b' i (if done then BPassed else BAsleep))).
(** Return from the wait, ThreadsController.cpp:124-126. *)
Definition barrier_woken (b : barrier) (i : nat) : barrier :=
  b_set b i (if b_complete b then BPassed else BAsleep).
(** deRegister(), ThreadsController.cpp:129-136, for thread [i]. *)
Definition barrier_deregister (b : barrier) (i : nat) : outcome barrier :=
  if b_complete b then Ret (b_set b i BGone)
  else obind (checkForFinish {| b_hits := b_hits b; b_threads := b_threads b - 1;
                                b_complete := b_complete b; b_st := b_st b |}) (fun r =>
  Ret (b_set (snd r) i BGone)).

(** Steps; [None] when the process stops in WDT_CHECK. A thread calls execute()
    at most once: the sender's only barrier is entered while the negotiation
    status is V_MISMATCH_WAIT, which is left for good afterwards
    (SenderThread.cpp:872-884, 892, 918). It deregisters at the end of start()
    (SenderThread.cpp:994). *)
Inductive bstep : barrier -> option barrier -> Prop :=
| BS_execute b i r : nth_error (b_st b) i = Some BOut ->
    barrier_execute b i = Ret r -> bstep b (Some r)
| BS_execute_crash b i : nth_error (b_st b) i = Some BOut ->
    barrier_execute b i = Crash -> bstep b None
| BS_woken b i : nth_error (b_st b) i = Some BWoken -> bstep b (Some (barrier_woken b i))
| BS_spurious b i : nth_error (b_st b) i = Some BAsleep -> bstep b (Some (b_set b i BWoken))
| BS_leave b i t r : nth_error (b_st b) i = Some t -> t = BOut \/ t = BPassed ->
    barrier_deregister b i = Ret r -> bstep b (Some r)
| BS_leave_crash b i t : nth_error (b_st b) i = Some t -> t = BOut \/ t = BPassed ->
    barrier_deregister b i = Crash -> bstep b None.
Inductive breach (n : nat) : barrier -> Prop :=
| BR0 : breach n (barrier_init n)
| BRS b b' : breach n b -> bstep b (Some b') -> breach n b'.

(** Executions in which thread [dead] could not allocate its buffer: it returns
    from start() before anything else, without deregistering
    (SenderThread.cpp:957-961), so it never calls execute() and never leaves. *)
Inductive breach_without (n dead : nat) : barrier -> Prop :=
| BW0 : breach_without n dead (barrier_init n)
| BWS b b' : breach_without n dead b -> bstep b (Some b') ->
    nth_error (b_st b') dead = Some BOut -> breach_without n dead b'.

(** ---- Funnel ---- *)

Inductive fstatus := FStart | FProgress | FEnd.
(** Where a user of the funnel is (SenderThread.cpp:886-941,
    ReceiverThread.cpp:741-830: a loop around getStatus; ReceiverThread.cpp:396-404:
    one getStatus). *)
Inductive fst_ :=
| FOut                    (* outside, may enter *)
| FLoop                   (* about to call getStatus *)
| FWorking                (* got FUNNEL_START: executing the work *)
| FSawProgress            (* got FUNNEL_PROGRESS, about to call wait *)
| FAsleep                 (* in cv_.wait *)
| FWoken                  (* notified or timed out *)
| FSawEnd                 (* got FUNNEL_END: has observed the success *)
| FSucceeded              (* did the work, called notifySuccess *)
| FGaveUp.                (* did the work, failed, called notifyFail *)

(** Members of Funnel, ThreadsController.h:250-256; [f_runs] and [f_successes]
    count, for the statements, how often the work was begun and succeeded. *)
Record funnel := { f_status : fstatus; f_runs : nat; f_successes : nat; f_st : list fst_ }.
Definition funnel_init (n : nat) : funnel :=
  {| f_status := FStart; f_runs := 0; f_successes := 0; f_st := repeat FOut n |}.
Definition f_wake (t : fst_) : fst_ := match t with FAsleep => FWoken | _ => t end.
Definition f_set (f : funnel) (i : nat) (t : fst_) : funnel :=
  {| f_status := f_status f; f_runs := f_runs f; f_successes := f_successes f;
     f_st := set_nth (f_st f) i t |}.

(** getStatus, ThreadsController.cpp:70-77. *)
Definition funnel_getStatus (f : funnel) (i : nat) : funnel :=
  match f_status f with
  | FStart => {| f_status := FProgress; f_runs := S (f_runs f); f_successes := f_successes f;
                 f_st := set_nth (f_st f) i FWorking |}
  | FProgress => f_set f i FSawProgress
  | FEnd => f_set f i FSawEnd
  end.
(** wait, ThreadsController.cpp:79-93: only while in progress. *)
Definition funnel_wait (f : funnel) (i : nat) : funnel :=
  f_set f i (match f_status f with FProgress => FAsleep | _ => FLoop end).
(** notifySuccess, ThreadsController.cpp:95-99. *)
Definition funnel_success (f : funnel) (i : nat) : funnel :=
  {| f_status := FEnd; f_runs := f_runs f; f_successes := S (f_successes f);
     f_st := set_nth (map f_wake (f_st f)) i FSucceeded |}.
(** notifyFail, ThreadsController.cpp:101-105; [ths]: the threads after notify_one. *)
Definition funnel_fail (f : funnel) (i : nat) (ths : list fst_) : funnel :=
  {| f_status := FStart; f_runs := f_runs f; f_successes := f_successes f;
     f_st := set_nth ths i FGaveUp |}.
Inductive f_notify_one : list fst_ -> list fst_ -> Prop :=
| FN_wake ths i : nth_error ths i = Some FAsleep -> f_notify_one ths (set_nth ths i FWoken)
| FN_lost ths : ~ In FAsleep ths -> f_notify_one ths ths.

(** Steps of threads inside. *)
Inductive fint : funnel -> funnel -> Prop :=
| FI_get f i : nth_error (f_st f) i = Some FLoop -> fint f (funnel_getStatus f i)
| FI_wait f i : nth_error (f_st f) i = Some FSawProgress -> fint f (funnel_wait f i)
| FI_woken f i : nth_error (f_st f) i = Some FWoken -> fint f (f_set f i FLoop)
| FI_success f i : nth_error (f_st f) i = Some FWorking -> fint f (funnel_success f i)
| FI_fail f i ths : nth_error (f_st f) i = Some FWorking -> f_notify_one (f_st f) ths ->
    fint f (funnel_fail f i ths).
(** Entering (again, when the receiver thread has accepted a new connection),
    leaving instead of waiting (the write of the WAIT command failed,
    ReceiverThread.cpp:758-765, or there is nothing to wait for,
    ReceiverThread.cpp:397-403), time-outs and spurious wake-ups. *)
Inductive fext : funnel -> funnel -> Prop :=
| FE_enter f i : nth_error (f_st f) i = Some FOut -> fext f (f_set f i FLoop)
| FE_again f i t : nth_error (f_st f) i = Some t ->
    t = FGaveUp \/ t = FSucceeded \/ t = FSawEnd -> fext f (f_set f i FLoop)
| FE_leave f i : nth_error (f_st f) i = Some FSawProgress -> fext f (f_set f i FOut)
| FE_timeout f i : nth_error (f_st f) i = Some FAsleep -> fext f (f_set f i FWoken).
Definition fstep (f f' : funnel) : Prop := fint f f' \/ fext f f'.
Inductive freach (n : nat) : funnel -> Prop :=
| FR0 : freach n (funnel_init n)
| FRS f f' : freach n f -> fstep f f' -> freach n f'.
Inductive frun : nat -> funnel -> funnel -> Prop :=
| FRun0 f : frun 0 f f
| FRunS k f1 f2 f3 : fint f1 f2 -> frun k f2 f3 -> frun (S k) f1 f3.

(** ---- ExecuteOnceFunc ---- *)

Inductive est :=
| EOut        (* has not called execute() *)
| EActing     (* holds mutex_, executing the function *)
| EReturned.
(** Members of ExecuteOnceFunc, ThreadsController.h:69-78; [e_ran] counts the
    completed executions of the function. *)
Record once := {
  e_hits : Z; e_first : bool; e_threads : Z; e_ran : nat; e_st : list est
}.
Definition once_init (n : nat) (first : bool) : once :=
  {| e_hits := 0; e_first := first; e_threads := Z.of_nat n; e_ran := 0; e_st := repeat EOut n |}.
(** execute(), ThreadsController.h:52-62: taking the lock needs that nobody
    holds it; the function runs under the lock. *)
Inductive ostep : once -> option once -> Prop :=
| OS_call e i : nth_error (e_st e) i = Some EOut -> ~ In EActing (e_st e) ->
    (e_hits e + 1 <= e_threads e) ->
    ostep e (Some {| e_hits := e_hits e + 1; e_first := e_first e; e_threads := e_threads e;
                     e_ran := e_ran e;
                     e_st := set_nth (e_st e) i
                       (if e_hits e + 1 =? (if e_first e then 1 else e_threads e)
                        then EActing else EReturned) |})
| OS_crash e i : nth_error (e_st e) i = Some EOut -> ~ In EActing (e_st e) ->
    e_threads e < e_hits e + 1 -> ostep e None
| OS_done e i : nth_error (e_st e) i = Some EActing ->
    ostep e (Some {| e_hits := e_hits e; e_first := e_first e; e_threads := e_threads e;
                     e_ran := S (e_ran e); e_st := set_nth (e_st e) i EReturned |}).
(** reset(), ThreadsController.h:65-67, between two sessions of a long-running
    receiver (Receiver.cpp:474): every thread runs again. *)
Definition once_reset (e : once) : once :=
  {| e_hits := 0; e_first := e_first e; e_threads := e_threads e; e_ran := 0;
     e_st := repeat EOut (length (e_st e)) |}.
Inductive oreach (n : nat) (first : bool) : once -> Prop :=
| OR0 : oreach n first (once_init n first)
| ORS e e' : oreach n first e -> ostep e (Some e') -> oreach n first e'.
(** Executions in which thread [dead] returned before calling
    (SenderThread.cpp:957-961, ReceiverThread.cpp:984-988). *)
Inductive oreach_without (n dead : nat) (first : bool) : once -> Prop :=
| OW0 : oreach_without n dead first (once_init n first)
| OWS e e' : oreach_without n dead first e -> ostep e (Some e') ->
    nth_error (e_st e') dead = Some EOut -> oreach_without n dead first e'.
