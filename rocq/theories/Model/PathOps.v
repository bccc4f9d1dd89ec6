(** Which paths the receiver hands to the operating system for the name in a file
    header: util/FileCreator.cpp and FileWriter::open.

    Simplified: what the operating system answers is given, and so is what the cache
    of created directories says, which other threads fill meanwhile. The waiting for
    another thread that allocates the file is in Model/FileAlloc.v, what happens to
    the content in Model/DiskIO.v. A CHECK or WDT_CHECK that fails is [Crash]. *)
From Verif Require Export Model.ProtocolCodec Model.Stats.
Open Scope Z_scope.

Inductive fcall :=
| FMkdir (p : list Z)
| FOpen (p : list Z) (creat trunc excl : bool)
| FUnlink (p : list Z).

(** The answers: by the number of calls made before. Negative: -errno. *)
Record fenv := {
  fe_ret : nat -> Z;
  fe_known : nat -> list Z -> bool;   (* dirCreated, FileCreator.h:160-163 *)
  fe_sized : bool                     (* setFileSize, FileCreator.cpp:17-49 *)
}.
(** FileCreator::rootDir_, skipWrites_, options_.overwrite,
    enable_download_resumption, isLogBasedResumption(), delete_extra_files. *)
Record fopts := {
  fo_root : list Z;
  fo_skip_writes : bool;
  fo_overwrite : bool;
  fo_resumption : bool;
  fo_log_based : bool;
  fo_delete_extra : bool
}.

(** A function of the calls made so far. *)
Definition fm (A : Type) := list fcall -> outcome (A * list fcall).
Definition fret {A} (x : A) : fm A := fun t => Ret (x, t).
Definition fcrash {A} : fm A := fun _ => Crash.
Definition fbind {A B} (m : fm A) (f : A -> fm B) : fm B := fun t =>
  match m t with Ret (x, t') => f x t' | Crash => Crash | Undef => Undef end.
Definition fdo (e : fenv) (c : fcall) : fm Z := fun t => Ret (fe_ret e (length t), t ++ [c]).

Definition SLASH := 47.
Definition EEXIST := 17.
Definition EISDIR := 21.
Definition last_is (c : Z) (s : list Z) : bool := match rev s with x :: _ => x =? c | [] => false end.
Definition first_is (c : Z) (s : list Z) : bool := match s with x :: _ => x =? c | [] => false end.

(** FileCreator::addTrailingSlash, FileCreator.cpp:342-347. *)
Definition addTrailingSlash (p : list Z) : list Z := if last_is SLASH p then p else p ++ [SLASH].
(** getFullPath, 337-339; rootDir_ is set by the constructor, FileCreator.h:46-50. *)
Definition getFullPath (o : fopts) (rel : list Z) : list Z := addTrailingSlash (fo_root o) ++ rel.

(** Everything up to the last slash, 213-218 and 308-311. *)
Fixpoint drop_to_slash (r : list Z) : list Z :=
  match r with [] => [] | c :: r' => if c =? SLASH then r else drop_to_slash r' end.
Definition dir_of (s : list Z) : list Z := rev (drop_to_slash (rev s)).

(** createDirRecursively, 296-335. [fuel]: its recursion shortens [dir]. *)
Fixpoint createDirRecursively (fuel : nat) (o : fopts) (e : fenv) (force : bool) (dir : list Z) : fm bool :=
  match fuel with
  | O => fun _ => Undef
  | S fuel' => fun t =>
      if fo_skip_writes o then Ret (false, t)
      else if negb force && fe_known e (length t) dir then Ret (true, t)
      else if negb (last_is SLASH dir) then Crash
      else
        let parent := dir_of (removelast dir) in
        fbind (match parent with [] => fret true | _ => createDirRecursively fuel' o e force parent end)
          (fun ok =>
             if negb ok then fret false
             else fbind (fdo e (FMkdir (getFullPath o dir))) (fun code =>
               if negb (code =? 0) && negb (code =? - EEXIST) && negb (code =? - EISDIR) then fret false
               else fret true)) t
  end.
Definition create_dir (o : fopts) (e : fenv) (force : bool) (dir : list Z) : fm bool :=
  createDirRecursively (S (length dir)) o e force dir.

(** The checks at the head of openExistingFile and createFile, 174-178, 202-204. *)
Definition name_ok (rel : list Z) : bool :=
  negb (zlen rel =? 0) && negb (first_is SLASH rel) && negb (last_is SLASH rel).

(** openExistingFile, 172-199. *)
Definition openExistingFile (o : fopts) (e : fenv) (rel : list Z) : fm Z :=
  if negb (name_ok rel) then fcrash
  else fbind (fdo e (FOpen (getFullPath o rel) false false false)) (fun res => fret (if res <? 0 then -1 else res)).

(** createFile, 201-294. *)
Definition createFile (o : fopts) (e : fenv) (rel : list Z) : fm Z :=
  if negb (name_ok rel) then fcrash
  else if fo_skip_writes o then fret (-1)
  else
    let dir := dir_of rel in
    let trunc := fo_overwrite o || fo_resumption o in
    let openIt := fdo e (FOpen (getFullPath o rel) true trunc (negb trunc)) in
    fbind (match dir with
           | [] => fret true
           | _ => fbind (create_dir o e false dir) (fun ok => if ok then fret true else create_dir o e true dir)
           end) (fun ok =>
    if negb ok then fret (-1)
    else fbind openIt (fun res =>
      if res <? 0 then
        match dir with
        | [] => fret (-1)
        | _ => fbind (create_dir o e true dir) (fun ok' =>
            if negb ok' then fret (-1)
            else fbind openIt (fun res' => fret (if res' <? 0 then -1 else res')))
        end
      else fret res)).

(** openAndSetSize, 51-88. *)
Definition openAndSetSize (o : fopts) (e : fenv) (b : block_details) : fm Z :=
  fbind (if bd_alloc b =? NOT_EXISTS then createFile o e (bd_fileName b) else openExistingFile o e (bd_fileName b))
    (fun fd =>
       if fd <? 0 then fret (-1)
       else if bd_alloc b =? EXISTS_CORRECT_SIZE then fret fd
       else if negb (fe_sized e) then fret (-1)
       else if fo_log_based o && negb ((bd_alloc b =? EXISTS_TOO_LARGE) || (bd_alloc b =? NOT_EXISTS))
            then if bd_alloc b =? EXISTS_TOO_SMALL then fret fd else fcrash
       else fret fd).

(** What fileStatusMap_ says of the file, after the wait if another thread was
    allocating it: absent, allocated, failed. *)
Inductive fstatus := SAbsent | SAllocated | SFailed.
(** openForBlocks, 123-168 (with openForFirstBlock 90-102). *)
Definition openForBlocks (o : fopts) (e : fenv) (st : fstatus) (b : block_details) : fm Z :=
  if bd_alloc b =? TO_BE_DELETED then fbind (fdo e (FUnlink (getFullPath o (bd_fileName b)))) (fun _ => fret (-1))
  else match st with
       | SAbsent => if bd_alloc b =? EXISTS_CORRECT_SIZE then openExistingFile o e (bd_fileName b)
                    else openAndSetSize o e b
       | SFailed => fret (-1)
       | SAllocated => openExistingFile o e (bd_fileName b)
       end.
(** FileWriter::open, FileWriter.cpp:28-56, as called by
    ReceiverThread::processFileCmd, ReceiverThread.cpp:500-504. [seek]: lseek
    succeeds. *)
Definition receive_open (o : fopts) (e : fenv) (seek : bool) (st : fstatus) (b : block_details) : fm Z :=
  if negb (fo_delete_extra o) && (bd_alloc b =? TO_BE_DELETED) then fret OK
  else if fo_skip_writes o then fret OK
  else fbind (openForBlocks o e st b) (fun fd =>
    if bd_alloc b =? TO_BE_DELETED then fret OK
    else if (0 <=? fd) && (bd_offset b >? 0) && negb seek then fret FILE_WRITE_ERROR
    else if fd =? -1 then fret FILE_WRITE_ERROR
    else fret OK).
