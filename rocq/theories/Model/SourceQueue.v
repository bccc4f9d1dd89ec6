(** The sender's queue of blocks: DirectorySourceQueue. Locking and wake-ups are
    in Model/QueueMonitor.v; here each method body is one atomic operation, as
    the mutex makes it. *)
From Verif Require Export Model.Intervals.

(** FileByteSource (util/FileByteSource.cpp:58-66) together with the metadata it
    points to (ByteSource.h:19-52: relPath, seqId, size, allocationStatus,
    prevSeqId) and its count of failed attempts (TransferStats, Reporting.h).
    The metadata is shared by pointer in the code; it changes only in
    createIntoQueueInternal, when no source points to it (the queue has just
    been cleared), so it is copied here. *)
Record source := {
  s_name : list Z;
  s_seqId : Z;
  s_fileSize : Z;
  s_alloc : Z;
  s_prevSeqId : Z;
  s_offset : Z;
  s_size : Z;
  s_failed : Z
}.

(** FileByteSource::advanceOffset, util/FileByteSource.cpp:99-102. *)
Definition advanceOffset (s : source) (n : Z) : source :=
  {| s_name := s_name s; s_seqId := s_seqId s; s_fileSize := s_fileSize s;
     s_alloc := s_alloc s; s_prevSeqId := s_prevSeqId s;
     s_offset := s_offset s + n; s_size := s_size s - n; s_failed := s_failed s |}.

(** TransferStats::incrFailedAttempts on the source's statistics. *)
Definition incrFailed (s : source) : source :=
  {| s_name := s_name s; s_seqId := s_seqId s; s_fileSize := s_fileSize s;
     s_alloc := s_alloc s; s_prevSeqId := s_prevSeqId s;
     s_offset := s_offset s; s_size := s_size s; s_failed := s_failed s + 1 |}.

(** std::string comparison (lexicographic on unsigned bytes). *)
Fixpoint str_ltb (a b : list Z) : bool :=
  match a, b with
  | [], [] => false
  | [], _ :: _ => true
  | _ :: _, [] => false
  | x :: a', y :: b' => if x <? y then true else if y <? x then false else str_ltb a' b'
  end.

Fixpoint str_eqb (a b : list Z) : bool :=
  match a, b with
  | [], [] => true
  | x :: a', y :: b' => (x =? y) && str_eqb a' b'
  | _, _ => false
  end.

(** SourceComparator, util/DirectorySourceQueue.h:341-366: [src_less s1 s2] when
    [s1] has lower priority than [s2]. *)
Definition src_less (s1 s2 : source) : bool :=
  let d1 := s_alloc s1 =? TO_BE_DELETED in
  let d2 := s_alloc s2 =? TO_BE_DELETED in
  if negb (Bool.eqb d1 d2) then d2
  else if negb (s_failed s1 =? s_failed s2) then s_failed s2 <? s_failed s1
  else if negb (s_size s1 =? s_size s2) then s_size s1 <? s_size s2
  else if negb (s_offset s1 =? s_offset s2) then s_offset s2 <? s_offset s1
  else str_ltb (s_name s2) (s_name s1).

(** std::priority_queue::top and pop: some element that no other one exceeds
    (which one of several equivalent elements is left open). *)
Definition pops (q : list source) (s : source) (q' : list source) : Prop :=
  (exists l1 l2, q = l1 ++ s :: l2 /\ q' = l1 ++ l2) /\
  forall t, In t q' -> src_less s t = false.

(** One such choice, computable: the first maximal element. *)
Fixpoint pop_top (q : list source) : option (source * list source) :=
  match q with
  | [] => None
  | s :: r =>
      match pop_top r with
      | None => Some (s, [])
      | Some (t, r') => if src_less s t then Some (t, s :: r') else Some (s, r)
      end
  end.

(** The members of DirectorySourceQueue used here,
    util/DirectorySourceQueue.h:290-447. [q_files]: relPath and size of
    sharedFileData_. [q_prev]: previouslyTransferredChunks_ (a hash map in the
    code; its iteration order only affects the order of insertion into the
    priority queue). *)
Record dq := {
  q_blockSizeMb : Z;
  q_delete : bool;
  q_prev : list file_chunks;
  q_next : Z;
  q_total : Z;
  q_entries : Z;
  q_blocks : Z;
  q_prevSent : Z;
  q_queue : list source;
  q_deq : Z;
  q_files : list (list Z * Z);
  q_initFinished : bool
}.

(** Freshly constructed queue: defaults in util/DirectorySourceQueue.h
    (nextSeqId_ is 1, line 396). *)
Definition dq_init (blockSizeMb : Z) (del : bool) : dq :=
  {| q_blockSizeMb := blockSizeMb; q_delete := del; q_prev := []; q_next := 1; q_total := 0;
     q_entries := 0; q_blocks := 0; q_prevSent := 0; q_queue := []; q_deq := 0; q_files := [];
     q_initFinished := false |}.

(** unordered_map::find by name. *)
Fixpoint find_prev (name : list Z) (l : list file_chunks) : option file_chunks :=
  match l with
  | [] => None
  | f :: r => if str_eqb (fc_fileName f) name then Some f else find_prev name r
  end.

(** unordered_map::insert: keeps an existing entry. *)
Definition insert_prev (f : file_chunks) (l : list file_chunks) : list file_chunks :=
  match find_prev (fc_fileName f) l with
  | Some _ => l
  | None => l ++ [f]
  end.

(** The do-while loop DirectorySourceQueue.cpp:539-549: offsets and sizes of the
    blocks of one chunk. [None]: not finished after [fuel] further iterations. *)
Fixpoint cut (fuel : nat) (blockSize offset remaining : Z) : option (list (Z * Z)) :=
  let size := Z.min remaining blockSize in
  if 0 <? remaining - size then
    match fuel with
    | O => None
    | S f =>
        match cut f blockSize (offset + size) (remaining - size) with
        | None => None
        | Some l => Some ((offset, size) :: l)
        end
    end
  else Some [(offset, size)].

(** Enough iterations whenever the loop terminates at all. *)
Definition cut_fuel (blockSize remaining : Z) : nat := Z.to_nat (remaining / blockSize).

(** The for loop 538-551. *)
Fixpoint cut_all (blockSize : Z) (chunks : list interval) : option (list (Z * Z)) :=
  match chunks with
  | [] => Some []
  | c :: r =>
      let n := iv_end c - iv_start c in
      match cut (cut_fuel blockSize n) blockSize (iv_start c) n, cut_all blockSize r with
      | Some l, Some m => Some (l ++ m)
      | _, _ => None
      end
  end.

(** Block size used for a file of the given size, 491-498. *)
Definition blockSizeFor (blockSizeMb fileSize : Z) : Z :=
  let bytes := blockSizeMb * 1024 * 1024 in
  if 0 <? bytes then bytes else fileSize.

Inductive plan :=
| PlanNew (alloc prevSeqId : Z)     (* send everything under a new sequence id *)
| PlanDone (sent : Z)               (* nothing missing *)
| PlanContinue (sent seqId alloc : Z) (missing : list interval).

(** The choice made in lines 504-533. *)
Definition planFor (prev : list file_chunks) (name : list Z) (fileSize : Z) : outcome plan :=
  match find_prev name prev with
  | None => Ret (PlanNew NOT_EXISTS 0)
  | Some f =>
      if fileSize <? fc_fileSize f then Ret (PlanNew EXISTS_TOO_LARGE (fc_seqId f))
      else
        obind (getRemainingChunks (fc_chunks f) fileSize) (fun missing =>
          match missing with
          | [] => Ret (PlanDone (getTotalChunkSize (fc_chunks f)))
          | _ :: _ =>
              Ret (PlanContinue (getTotalChunkSize (fc_chunks f)) (fc_seqId f)
                     (if fc_fileSize f <? fileSize then EXISTS_TOO_SMALL else EXISTS_CORRECT_SIZE)
                     missing)
          end)
  end.

Definition mkSource (name : list Z) (fileSize seqId alloc prevSeqId : Z) (b : Z * Z) : source :=
  {| s_name := name; s_seqId := seqId; s_fileSize := fileSize; s_alloc := alloc;
     s_prevSeqId := prevSeqId; s_offset := fst b; s_size := snd b; s_failed := 0 |}.

(** Lines 534-554: push the blocks and update the counters. *)
Definition push_blocks (q : dq) (next prevSent : Z) (chunks : list interval) (srcs : list source) : dq :=
  {| q_blockSizeMb := q_blockSizeMb q; q_delete := q_delete q; q_prev := q_prev q;
     q_next := next; q_total := q_total q + getTotalChunkSize chunks;
     q_entries := q_entries q + 1; q_blocks := q_blocks q + zlen srcs;
     q_prevSent := prevSent; q_queue := q_queue q ++ srcs; q_deq := q_deq q;
     q_files := q_files q; q_initFinished := q_initFinished q |}.

Definition set_prevSent (q : dq) (v : Z) : dq :=
  {| q_blockSizeMb := q_blockSizeMb q; q_delete := q_delete q; q_prev := q_prev q;
     q_next := q_next q; q_total := q_total q; q_entries := q_entries q; q_blocks := q_blocks q;
     q_prevSent := v; q_queue := q_queue q; q_deq := q_deq q;
     q_files := q_files q; q_initFinished := q_initFinished q |}.

(** createIntoQueueInternal, DirectorySourceQueue.cpp:479-555. [Ret None]: does
    not terminate. 64-bit overflow of the byte counters is not modelled. *)
Definition createIntoQueueInternal (q : dq) (file : list Z * Z) : outcome (option dq) :=
  let '(name, fileSize) := file in
  let blockSize := blockSizeFor (q_blockSizeMb q) fileSize in
  obind (planFor (q_prev q) name fileSize) (fun p =>
    match p with
    | PlanNew alloc prevSeqId =>
        obind (mkInterval 0 fileSize) (fun c =>
          match cut_all blockSize [c] with
          | None => Ret None
          | Some bs =>
              Ret (Some (push_blocks q (q_next q + 1) (q_prevSent q) [c]
                           (map (mkSource name fileSize (q_next q) alloc prevSeqId) bs)))
          end)
    | PlanDone sent => Ret (Some (set_prevSent q (q_prevSent q + sent)))
    | PlanContinue sent seqId alloc missing =>
        match cut_all blockSize missing with
        | None => Ret None
        | Some bs =>
            Ret (Some (push_blocks q (q_next q) (q_prevSent q + sent) missing
                         (map (mkSource name fileSize seqId alloc 0) bs)))
        end
    end).

Definition add_file (q : dq) (file : list Z * Z) : dq :=
  {| q_blockSizeMb := q_blockSizeMb q; q_delete := q_delete q; q_prev := q_prev q;
     q_next := q_next q; q_total := q_total q; q_entries := q_entries q; q_blocks := q_blocks q;
     q_prevSent := q_prevSent q; q_queue := q_queue q; q_deq := q_deq q;
     q_files := q_files q ++ [file]; q_initFinished := q_initFinished q |}.

(** createIntoQueue, DirectorySourceQueue.cpp:442-477 (opening files during
    discovery left out). *)
Definition createIntoQueue (q : dq) (file : list Z * Z) : outcome (option dq) :=
  createIntoQueueInternal (add_file q file) file.

Fixpoint create_all (q : dq) (files : list (list Z * Z)) : outcome (option dq) :=
  match files with
  | [] => Ret (Some q)
  | f :: r =>
      obind (createIntoQueueInternal q f) (fun o =>
        match o with
        | None => Ret None
        | Some q' => create_all q' r
        end)
  end.

Definition has_name (name : list Z) (files : list (list Z * Z)) : bool :=
  existsb (fun f => str_eqb (fst f) name) files.

(** A block of size 0 asking for deletion, lines 661-670. *)
Definition deletion_source (f : file_chunks) : source :=
  mkSource (fc_fileName f) 0 (fc_seqId f) TO_BE_DELETED 0 (0, 0).

(** enqueueFilesToBeDeleted, DirectorySourceQueue.cpp:638-677. *)
Definition enqueueFilesToBeDeleted (q : dq) : dq :=
  if negb (q_delete q) then q
  else if negb (q_initFinished q) || (match q_prev q with [] => true | _ => false end) then q
  else
    let extra := filter (fun f => negb (has_name (fc_fileName f) (q_files q))) (q_prev q) in
    {| q_blockSizeMb := q_blockSizeMb q; q_delete := q_delete q; q_prev := q_prev q;
       q_next := q_next q; q_total := q_total q;
       q_entries := q_entries q + zlen extra; q_blocks := q_blocks q + zlen extra;
       q_prevSent := q_prevSent q; q_queue := q_queue q ++ map deletion_source extra;
       q_deq := q_deq q;
       q_files := q_files q ++ map (fun f => (fc_fileName f, 0)) extra;
       q_initFinished := q_initFinished q |}.

(** setPreviouslyReceivedChunks, DirectorySourceQueue.cpp:145-168. *)
Definition setPreviouslyReceivedChunks (q : dq) (l : list file_chunks) : outcome (option dq) :=
  if negb (q_deq q =? 0) then Crash
  else
    let q0 := {| q_blockSizeMb := q_blockSizeMb q; q_delete := q_delete q;
                 q_prev := fold_left (fun m f => insert_prev f m) l (q_prev q);
                 q_next := fold_left (fun n f => Z.max n (fc_seqId f + 1)) l 0;
                 q_total := 0; q_entries := 0; q_blocks := 0; q_prevSent := q_prevSent q;
                 q_queue := []; q_deq := q_deq q; q_files := q_files q;
                 q_initFinished := q_initFinished q |} in
    obind (create_all q0 (q_files q0)) (fun o =>
      match o with
      | None => Ret None
      | Some q1 => Ret (Some (enqueueFilesToBeDeleted q1))
      end).

(** End of buildQueueSynchronously, DirectorySourceQueue.cpp:222-230. *)
Definition finishInit (q : dq) : dq :=
  enqueueFilesToBeDeleted
    {| q_blockSizeMb := q_blockSizeMb q; q_delete := q_delete q; q_prev := q_prev q;
       q_next := q_next q; q_total := q_total q; q_entries := q_entries q; q_blocks := q_blocks q;
       q_prevSent := q_prevSent q; q_queue := q_queue q; q_deq := q_deq q;
       q_files := q_files q; q_initFinished := true |}.

Definition set_queue (q : dq) (l : list source) (deq : Z) : dq :=
  {| q_blockSizeMb := q_blockSizeMb q; q_delete := q_delete q; q_prev := q_prev q;
     q_next := q_next q; q_total := q_total q; q_entries := q_entries q; q_blocks := q_blocks q;
     q_prevSent := q_prevSent q; q_queue := l; q_deq := deq;
     q_files := q_files q; q_initFinished := q_initFinished q |}.

(** The loop of returnToQueue, DirectorySourceQueue.cpp:426-431. *)
Fixpoint returnToQueue (q : dq) (l : list source) : outcome dq :=
  match l with
  | [] => Ret q
  | s :: r =>
      if q_deq q <=? 0 then Crash
      else returnToQueue (set_queue q (q_queue q ++ [s]) (q_deq q - 1)) r
  end.

(** State of the queue together with what happened so far. The fields besides
    [w_q] and [w_prevSet] are only recorded, never read:
    created / discarded: blocks made, and thrown away when the queue is rebuilt;
    live: blocks made since the last rebuild;
    handed / unopened: blocks returned by getNextSource, blocks whose file could
    not be opened; returned: blocks given back; discovered: files found. *)
Record qworld := {
  w_q : dq;
  w_prevSet : bool;   (* Sender::fileChunksReceived_ *)
  w_created : list source;
  w_live : list source;
  w_discarded : list source;
  w_handed : list source;
  w_unopened : list source;
  w_returned : list source;
  w_discovered : list (list Z * Z)
}.

Definition qworld_init (mb : Z) (del : bool) : qworld :=
  {| w_q := dq_init mb del; w_prevSet := false; w_created := []; w_live := []; w_discarded := [];
     w_handed := []; w_unopened := []; w_returned := []; w_discovered := [] |}.

(** Blocks appended to the queue by an operation. *)
Definition appended (old new : list source) : list source := skipn (length old) new.

Inductive qstep : qworld -> qworld -> Prop :=
| QDiscover w file q' :
    (* the builder thread finds a file; lines 570-596, 256-410. Sizes come from
       stat or are non-negative. *)
    q_initFinished (w_q w) = false -> 0 <= snd file ->
    createIntoQueue (w_q w) file = Ret (Some q') ->
    qstep w {| w_q := q'; w_prevSet := w_prevSet w;
               w_created := w_created w ++ appended (q_queue (w_q w)) (q_queue q');
               w_live := w_live w ++ appended (q_queue (w_q w)) (q_queue q');
               w_discarded := w_discarded w; w_handed := w_handed w;
               w_unopened := w_unopened w; w_returned := w_returned w;
               w_discovered := w_discovered w ++ [file] |}
| QInitFinished w :
    q_initFinished (w_q w) = false ->
    qstep w {| w_q := finishInit (w_q w); w_prevSet := w_prevSet w;
               w_created := w_created w ++ appended (q_queue (w_q w)) (q_queue (finishInit (w_q w)));
               w_live := w_live w ++ appended (q_queue (w_q w)) (q_queue (finishInit (w_q w)));
               w_discarded := w_discarded w; w_handed := w_handed w;
               w_unopened := w_unopened w; w_returned := w_returned w;
               w_discovered := w_discovered w |}
| QSetPrev w l q' :
    (* once per sender: Sender.cpp:114-123 *)
    w_prevSet w = false ->
    setPreviouslyReceivedChunks (w_q w) l = Ret (Some q') ->
    qstep w {| w_q := q'; w_prevSet := true;
               w_created := w_created w ++ q_queue q';
               w_live := q_queue q';
               w_discarded := w_discarded w ++ q_queue (w_q w); w_handed := w_handed w;
               w_unopened := w_unopened w; w_returned := w_returned w;
               w_discovered := w_discovered w |}
| QHand w s rest :
    (* getNextSource, lines 696-713, open succeeded *)
    pops (q_queue (w_q w)) s rest ->
    qstep w {| w_q := set_queue (w_q w) rest (q_deq (w_q w) + 1); w_prevSet := w_prevSet w;
               w_created := w_created w; w_live := w_live w; w_discarded := w_discarded w;
               w_handed := w_handed w ++ [s];
               w_unopened := w_unopened w; w_returned := w_returned w;
               w_discovered := w_discovered w |}
| QOpenFail w s rest :
    (* lines 715-719 *)
    pops (q_queue (w_q w)) s rest ->
    qstep w {| w_q := set_queue (w_q w) rest (q_deq (w_q w)); w_prevSet := w_prevSet w;
               w_created := w_created w; w_live := w_live w; w_discarded := w_discarded w;
               w_handed := w_handed w;
               w_unopened := w_unopened w ++ [s]; w_returned := w_returned w;
               w_discovered := w_discovered w |}
| QReturn w l q' :
    returnToQueue (w_q w) l = Ret q' ->
    qstep w {| w_q := q'; w_prevSet := w_prevSet w;
               w_created := w_created w; w_live := w_live w; w_discarded := w_discarded w;
               w_handed := w_handed w;
               w_unopened := w_unopened w; w_returned := w_returned w ++ l;
               w_discovered := w_discovered w |}.

Inductive qreach (mb : Z) (del : bool) : qworld -> Prop :=
| QR0 : qreach mb del (qworld_init mb del)
| QRS w w' : qreach mb del w -> qstep w w' -> qreach mb del w'.
