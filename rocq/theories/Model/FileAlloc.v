(** Allocation of destination files shared by receiver threads:
    util/FileCreator.cpp, openForBlocks, openForFirstBlock and
    waitForAllocationFinish. One step is one stretch of code between two
    accesses to shared state: [lock_] (a spin lock) is held only inside a step;
    [allocationMutex_] is explicit, because it is held across steps. What
    openAndSetSize and openExistingFile return is arbitrary here; what they do
    on disk is in Model/DiskIO.v. *)
From Verif Require Export Model.QueueMonitor.

(** Where a receiver thread is; [s] is the sequence id of the file. *)
Inductive cst :=
| CIdle                              (* outside openForBlocks *)
| CAlloc (s : Z)                     (* in openAndSetSize (FileCreator.cpp:92) *)
| CSet (s : Z) (ok : bool)           (* status set (97), before taking allocationMutex_ (99) *)
| CSaw (s : Z) (t : Z)               (* allocation in progress by [t] (163), before line 106 *)
| CHolding (s : Z) (t : Z)           (* holds allocationMutex_, before line 109 *)
| CWillSleep (s : Z) (t : Z)         (* holds allocationMutex_, status in progress, before line 119 *)
| CAsleep (s : Z) (t : Z)            (* in wait of the condition variable of [t] (119) *)
| CWoken (s : Z) (t : Z)             (* notified, has to take allocationMutex_ again *)
| CMayOpen (s : Z)                   (* before openExistingFile (167) *)
| CDone (s : Z) (fd_ok : bool).      (* returned from openForBlocks *)

(** FileCreator.h:177-178. *)
Definition ALLOCATED : Z := -1.
Definition FAILED : Z := -2.

(** [fa_map]: fileStatusMap_ (FileCreator.h:184). [fa_allocs] and [fa_presized]
    are ghosts: how often openAndSetSize was begun for a file, and whether some
    block of it said EXISTS_CORRECT_SIZE before. *)
Record falloc := {
  fa_map : Z -> option Z;
  fa_mutex : option nat;
  fa_allocs : Z -> nat;
  fa_presized : Z -> bool;
  fa_st : list cst
}.
Definition falloc_init (n : nat) : falloc :=
  {| fa_map := fun _ => None; fa_mutex := None; fa_allocs := fun _ => 0%nat;
     fa_presized := fun _ => false; fa_st := repeat CIdle n |}.
Definition mset {A} (m : Z -> A) (k : Z) (v : A) : Z -> A := fun x => if x =? k then v else m x.

Definition fa_go (f : falloc) (i : nat) (t : cst) : falloc :=
  {| fa_map := fa_map f; fa_mutex := fa_mutex f; fa_allocs := fa_allocs f;
     fa_presized := fa_presized f; fa_st := set_nth (fa_st f) i t |}.

(** openForBlocks, FileCreator.cpp:139-167, by thread [i] for a block of file
    [s]; [exact]: the block says EXISTS_CORRECT_SIZE. (TO_BE_DELETED, 125-138,
    does not use the map.) *)
Definition fa_open (f : falloc) (i : nat) (s : Z) (exact : bool) : falloc :=
  match fa_map f s with
  | None =>
      if exact
      then {| fa_map := mset (fa_map f) s (Some ALLOCATED); fa_mutex := fa_mutex f;
              fa_allocs := fa_allocs f; fa_presized := mset (fa_presized f) s true;
              fa_st := set_nth (fa_st f) i (CMayOpen s) |}
      else {| fa_map := mset (fa_map f) s (Some (Z.of_nat i)); fa_mutex := fa_mutex f;
              fa_allocs := mset (fa_allocs f) s (S (fa_allocs f s)); fa_presized := fa_presized f;
              fa_st := set_nth (fa_st f) i (CAlloc s) |}
  | Some st =>
      if st =? FAILED then fa_go f i (CDone s false)
      else if st =? ALLOCATED then fa_go f i (CMayOpen s)
      else fa_go f i (CSaw s st)
  end.
(** openForFirstBlock after openAndSetSize, FileCreator.cpp:92-98. *)
Definition fa_finish (f : falloc) (i : nat) (s : Z) (ok : bool) : falloc :=
  {| fa_map := mset (fa_map f) s (Some (if ok then ALLOCATED else FAILED));
     fa_mutex := fa_mutex f; fa_allocs := fa_allocs f; fa_presized := fa_presized f;
     fa_st := set_nth (fa_st f) i (CSet s ok) |}.
(** FileCreator.cpp:99-101: wakes the threads waiting on the condition variable
    of thread [i]. *)
Definition c_wake (i : nat) (t : cst) : cst :=
  match t with CAsleep s u => if u =? Z.of_nat i then CWoken s u else t | _ => t end.
Definition fa_notify (f : falloc) (i : nat) (s : Z) (ok : bool) : falloc :=
  {| fa_map := fa_map f; fa_mutex := fa_mutex f; fa_allocs := fa_allocs f;
     fa_presized := fa_presized f;
     fa_st := set_nth (map (c_wake i) (fa_st f)) i (CDone s ok) |}.
Definition fa_lock (f : falloc) (i : nat) (m : option nat) (t : cst) : falloc :=
  {| fa_map := fa_map f; fa_mutex := m; fa_allocs := fa_allocs f;
     fa_presized := fa_presized f; fa_st := set_nth (fa_st f) i t |}.
(** One round of the loop of waitForAllocationFinish, FileCreator.cpp:108-118. *)
Definition fa_check (f : falloc) (i : nat) (s t : Z) : outcome falloc :=
  match fa_map f s with
  | None => Crash
  | Some st =>
      Ret (if st =? ALLOCATED then fa_lock f i None (CMayOpen s)
           else if st =? FAILED then fa_lock f i None (CDone s false)
           else fa_lock f i (fa_mutex f) (CWillSleep s t))
  end.

(** Steps of threads inside; [None]: a failed WDT_CHECK. *)
Inductive aint : falloc -> option falloc -> Prop :=
| AI_finish f i s ok : nth_error (fa_st f) i = Some (CAlloc s) -> fa_map f s <> None ->
    aint f (Some (fa_finish f i s ok))
| AI_finish_crash f i s : nth_error (fa_st f) i = Some (CAlloc s) -> fa_map f s = None ->
    aint f None
| AI_notify f i s ok : nth_error (fa_st f) i = Some (CSet s ok) -> fa_mutex f = None ->
    aint f (Some (fa_notify f i s ok))
| AI_take f i s t : nth_error (fa_st f) i = Some (CSaw s t) \/
    nth_error (fa_st f) i = Some (CWoken s t) -> fa_mutex f = None ->
    aint f (Some (fa_lock f i (Some i) (CHolding s t)))
| AI_check f i s t f' : nth_error (fa_st f) i = Some (CHolding s t) ->
    fa_check f i s t = Ret f' -> aint f (Some f')
| AI_check_crash f i s t : nth_error (fa_st f) i = Some (CHolding s t) ->
    fa_check f i s t = Crash -> aint f None
| AI_sleep f i s t : nth_error (fa_st f) i = Some (CWillSleep s t) ->
    aint f (Some (fa_lock f i None (CAsleep s t)))
| AI_open f i s ok : nth_error (fa_st f) i = Some (CMayOpen s) ->
    aint f (Some (fa_go f i (CDone s ok))).
(** Calls, returns and spurious wake-ups. *)
Inductive aext : falloc -> falloc -> Prop :=
| AE_call f i s exact : nth_error (fa_st f) i = Some CIdle -> aext f (fa_open f i s exact)
| AE_return f i s ok : nth_error (fa_st f) i = Some (CDone s ok) -> aext f (fa_go f i CIdle)
| AE_spurious f i s t : nth_error (fa_st f) i = Some (CAsleep s t) ->
    aext f (fa_go f i (CWoken s t)).
(** Steps of one session. *)
Inductive asteps : falloc -> falloc -> Prop :=
| AS0 f : asteps f f
| ASI f1 f2 f3 : aint f1 (Some f2) -> asteps f2 f3 -> asteps f1 f3
| ASE f1 f2 f3 : aext f1 f2 -> asteps f2 f3 -> asteps f1 f3.
(** clearAllocationMap (FileCreator.h:79-82) at the end of a session, when every
    thread has left (Receiver.cpp:96-112, run by the last thread). *)
Inductive areach (n : nat) : falloc -> Prop :=
| AR0 : areach n (falloc_init n)
| ARI f f' : areach n f -> aint f (Some f') -> areach n f'
| ARE f f' : areach n f -> aext f f' -> areach n f'
| ARC f : areach n f -> (forall i t, nth_error (fa_st f) i = Some t -> t = CIdle) ->
    areach n (falloc_init (length (fa_st f))).
Inductive arun : nat -> falloc -> falloc -> Prop :=
| ARun0 f : arun 0 f f
| ARunS k f1 f2 f3 : aint f1 (Some f2) -> arun k f2 f3 -> arun (S k) f1 f3.
