(** Locking and wake-ups of the sender's block queue: DirectorySourceQueue seen
    as a monitor shared by the discovery thread and the sender threads. Which
    block is handed out is modelled in Model/SourceQueue.v; here the queue is
    represented by the number of blocks in it. One step is one stretch of code
    executed while holding mutex_ (or one action outside it that other threads
    can observe). The scheduler, and which sleeper notify_one wakes, are
    arbitrary. *)
From Verif Require Export Model.Bytes.

(** Where a client thread is. *)
Inductive tst :=
| TIdle                   (* outside the queue *)
| TEnter                  (* in getNextSource, before taking mutex_ (DirectorySourceQueue.cpp:683) *)
| TAsleep                 (* in conditionNotEmpty_.wait (688), not notified *)
| TWoken                  (* in conditionNotEmpty_.wait, notified, waiting for mutex_ *)
| TOpening (failed : bool)  (* popped a block, opening it without mutex_ (706-710);
                               status ERROR iff [failed] (691-695) *)
| TOpenedOk (failed : bool) (* opened, before taking mutex_ again (711) *)
| TOpenFailed             (* not opened, before taking mutex_ again (718) *)
| TGot (failed : bool)    (* returned a block (713) *)
| TNone (failed : bool)   (* returned nullptr; status ERROR iff [failed] (697) *)
| TReturned (k : nat)     (* in returnToQueue, [k] blocks pushed, mutex_ released (432) *)
| TNotifying (k : nat).   (* in the loop of smartNotify (417-419), [k] calls to go *)

(** The members of the monitor. [m_called] is a ghost: some thread has called
    getNextSource. *)
Record mon := {
  m_clients : nat;      (* numClientThreads_ *)
  m_q : nat;            (* sourceQueue_.size() *)
  m_init : bool;        (* initFinished_ *)
  m_waiters : Z;        (* numWaiters_ *)
  m_deq : nat;          (* numBlocksDequeued_ *)
  m_failed : bool;      (* failedSourceStats_ or failedDirectories_ not empty *)
  m_called : bool;
  m_threads : list tst
}.

(** All client threads outside the queue, nothing discovered. *)
Definition mon_init (clients threads : nat) : mon :=
  {| m_clients := clients; m_q := 0; m_init := false; m_waiters := 0; m_deq := 0;
     m_failed := false; m_called := false; m_threads := repeat TIdle threads |}.

Fixpoint set_nth {A} (l : list A) (i : nat) (x : A) : list A :=
  match l, i with
  | [], _ => []
  | _ :: r, O => x :: r
  | a :: r, S j => a :: set_nth r j x
  end.

(** conditionNotEmpty_.notify_all(). *)
Definition wake (t : tst) : tst := match t with TAsleep => TWoken | _ => t end.
Definition notify_all (ths : list tst) : list tst := map wake ths.

(** conditionNotEmpty_.notify_one(): any one sleeper; lost if there is none. *)
Inductive notify_one : list tst -> list tst -> Prop :=
| N1_wake ths i : nth_error ths i = Some TAsleep -> notify_one ths (set_nth ths i TWoken)
| N1_lost ths : (forall t, In t ths -> t <> TAsleep) -> notify_one ths ths.

Inductive notify_n : nat -> list tst -> list tst -> Prop :=
| NN_0 ths : notify_n 0 ths ths
| NN_S n a b c : notify_one a b -> notify_n n b c -> notify_n (S n) a c.

(** smartNotify called with mutex_ held, DirectorySourceQueue.cpp:412-420. *)
Inductive smart_notify (clients added : nat) : list tst -> list tst -> Prop :=
| SN_all ths : (clients <= added)%nat -> smart_notify clients added ths (notify_all ths)
| SN_some a b : (added < clients)%nat -> notify_n added a b -> smart_notify clients added a b.

(** One call for each file, as createIntoQueueInternal does (554). *)
Inductive smart_notifies (clients : nat) : list nat -> list tst -> list tst -> Prop :=
| SNS_nil ths : smart_notifies clients [] ths ths
| SNS_cons k l a b c :
    smart_notify clients k a b -> smart_notifies clients l b c ->
    smart_notifies clients (k :: l) a c.

(** The part of getNextSource from the test of the wait condition on (687-706),
    executed by thread [i] with mutex_ held; numWaiters_ is already counted. *)
Definition take (m : mon) (i : nat) : mon :=
  if andb (Nat.eqb (m_q m) 0) (negb (m_init m)) then
    {| m_clients := m_clients m; m_q := m_q m; m_init := m_init m; m_waiters := m_waiters m;
       m_deq := m_deq m; m_failed := m_failed m; m_called := m_called m;
       m_threads := set_nth (m_threads m) i TAsleep |}
  else if Nat.eqb (m_q m) 0 then
    {| m_clients := m_clients m; m_q := m_q m; m_init := m_init m;
       m_waiters := m_waiters m - 1;
       m_deq := m_deq m; m_failed := m_failed m; m_called := m_called m;
       m_threads := set_nth (m_threads m) i (TNone (m_failed m)) |}
  else
    let q' := Nat.pred (m_q m) in
    {| m_clients := m_clients m; m_q := q'; m_init := m_init m;
       m_waiters := m_waiters m - 1;
       m_deq := m_deq m; m_failed := m_failed m; m_called := m_called m;
       m_threads := set_nth (if andb (Nat.eqb q' 0) (m_init m) then notify_all (m_threads m)
                             else m_threads m) i (TOpening (m_failed m)) |}.

Definition with_threads (m : mon) (ths : list tst) : mon :=
  {| m_clients := m_clients m; m_q := m_q m; m_init := m_init m; m_waiters := m_waiters m;
     m_deq := m_deq m; m_failed := m_failed m; m_called := m_called m; m_threads := ths |}.

(** Steps a thread takes on its own once inside the queue's code. *)
Inductive mint : mon -> mon -> Prop :=
| MEnter m i :                                    (* 683-706 *)
    nth_error (m_threads m) i = Some TEnter ->
    mint m (take {| m_clients := m_clients m; m_q := m_q m; m_init := m_init m;
                    m_waiters := m_waiters m + 1; m_deq := m_deq m; m_failed := m_failed m;
                    m_called := m_called m; m_threads := m_threads m |} i)
| MWake m i :                                     (* return from wait, 687-706 *)
    nth_error (m_threads m) i = Some TWoken ->
    mint m (take m i)
| MOpenOk m i b :                                 (* 710 *)
    nth_error (m_threads m) i = Some (TOpening b) ->
    mint m (with_threads m (set_nth (m_threads m) i (TOpenedOk b)))
| MOpenFail m i b :                               (* 710, 715 *)
    nth_error (m_threads m) i = Some (TOpening b) ->
    mint m (with_threads m (set_nth (m_threads m) i TOpenFailed))
| MOpened m i b :                                 (* 711-713 *)
    nth_error (m_threads m) i = Some (TOpenedOk b) ->
    mint m {| m_clients := m_clients m; m_q := m_q m; m_init := m_init m;
              m_waiters := m_waiters m; m_deq := S (m_deq m); m_failed := m_failed m;
              m_called := m_called m;
              m_threads := set_nth (m_threads m) i (TGot b) |}
| MFailed m i :                                   (* 718-720 *)
    nth_error (m_threads m) i = Some TOpenFailed ->
    mint m {| m_clients := m_clients m; m_q := m_q m; m_init := m_init m;
              m_waiters := m_waiters m; m_deq := m_deq m; m_failed := true;
              m_called := m_called m;
              m_threads := set_nth (m_threads m) i TEnter |}
| MSmartAll m i k :                               (* 433, 413-416 *)
    nth_error (m_threads m) i = Some (TReturned k) -> (m_clients m <= k)%nat ->
    mint m (with_threads m (set_nth (notify_all (m_threads m)) i TIdle))
| MSmartSome m i k :                              (* 433, 417 *)
    nth_error (m_threads m) i = Some (TReturned k) -> (k < m_clients m)%nat ->
    mint m (with_threads m (set_nth (m_threads m) i (TNotifying k)))
| MNotifyOne m i k ths :                          (* 418 *)
    nth_error (m_threads m) i = Some (TNotifying (S k)) ->
    notify_one (m_threads m) ths ->
    mint m (with_threads m (set_nth ths i (TNotifying k)))
| MNotifyEnd m i :                                (* 419-420 *)
    nth_error (m_threads m) i = Some (TNotifying 0) ->
    mint m (with_threads m (set_nth (m_threads m) i TIdle)).

(** setPreviouslyReceivedChunks (145-173): the queue is cleared and refilled with
    [ks] blocks per file and, if discovery has finished, [d] deletions. *)
Definition resume (m : mon) (ks : list nat) (d : nat) (m' : mon) : Prop :=
  m_deq m = 0%nat /\ (m_init m = false -> d = 0%nat) /\
  exists a b,
    smart_notifies (m_clients m) ks (m_threads m) a /\
    smart_notify (m_clients m) d a b /\
    m' = {| m_clients := m_clients m; m_q := (list_sum ks + d)%nat; m_init := m_init m;
            m_waiters := m_waiters m; m_deq := 0; m_failed := m_failed m;
            m_called := m_called m; m_threads := b |}.

(** Steps that bring in new work, calls or wake-ups from outside. *)
Inductive mext : mon -> mon -> Prop :=
| MDiscover m k ths :                             (* createIntoQueue, 442-477 *)
    m_init m = false ->
    smart_notify (m_clients m) k (m_threads m) ths ->
    mext m {| m_clients := m_clients m; m_q := (m_q m + k)%nat; m_init := false;
              m_waiters := m_waiters m; m_deq := m_deq m; m_failed := m_failed m;
              m_called := m_called m; m_threads := ths |}
| MDirFailed m :                                  (* explore 266-383, enqueueFiles 585-586 *)
    m_init m = false ->
    mext m {| m_clients := m_clients m; m_q := m_q m; m_init := m_init m;
              m_waiters := m_waiters m; m_deq := m_deq m; m_failed := true;
              m_called := m_called m; m_threads := m_threads m |}
| MFinish m d ths :                               (* 222-230, [d] files to delete *)
    m_init m = false ->
    smart_notify (m_clients m) d (m_threads m) ths ->
    mext m {| m_clients := m_clients m; m_q := (m_q m + d)%nat; m_init := true;
              m_waiters := m_waiters m; m_deq := m_deq m; m_failed := m_failed m;
              m_called := m_called m;
              m_threads := if Nat.eqb (m_q m + d) 0 then notify_all ths else ths |}
| MResume m ks d m' :                             (* Sender.cpp:114-123 *)
    m_called m = false -> resume m ks d m' -> mext m m'
| MCall m i :                                     (* SenderThread.cpp:282-314 *)
    nth_error (m_threads m) i = Some TIdle ->
    mext m {| m_clients := m_clients m; m_q := m_q m; m_init := m_init m;
              m_waiters := m_waiters m; m_deq := m_deq m; m_failed := m_failed m;
              m_called := true; m_threads := set_nth (m_threads m) i TEnter |}
| MDone m i b :                                   (* the caller goes on *)
    nth_error (m_threads m) i = Some (TGot b) \/ nth_error (m_threads m) i = Some (TNone b) ->
    mext m (with_threads m (set_nth (m_threads m) i TIdle))
| MReturn m i k :                                 (* returnToQueue, 424-432 *)
    nth_error (m_threads m) i = Some TIdle -> (k <= m_deq m)%nat ->
    mext m {| m_clients := m_clients m; m_q := (m_q m + k)%nat; m_init := m_init m;
              m_waiters := m_waiters m; m_deq := (m_deq m - k)%nat; m_failed := m_failed m;
              m_called := m_called m; m_threads := set_nth (m_threads m) i (TReturned k) |}
| MSpurious m i :                                 (* condition variables may wake up anyway *)
    nth_error (m_threads m) i = Some TAsleep ->
    mext m (with_threads m (set_nth (m_threads m) i TWoken)).

Definition mstep (m m' : mon) : Prop := mint m m' \/ mext m m'.

(** All executions, for [n] client threads of which the queue was told [c]. *)
Inductive mreach (c n : nat) : mon -> Prop :=
| MR0 : mreach c n (mon_init c n)
| MRS m m' : mreach c n m -> mstep m m' -> mreach c n m'.

(** Runs of [k] internal steps. *)
Inductive mrun : nat -> mon -> mon -> Prop :=
| MRun0 m : mrun 0 m m
| MRunS k m1 m2 m3 : mint m1 m2 -> mrun k m2 m3 -> mrun (S k) m1 m3.

(** The condition under which waitForPreviousTransfer (723-749) returns, when not
    aborted, with [active] the number of active sender threads. *)
Definition batch_finished (m : mon) (active : nat) : Prop :=
  m_q m = 0%nat /\ Z.of_nat active <= m_waiters m.
