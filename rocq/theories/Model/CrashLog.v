(** The receiver's disk, transfer log and threads at the grain at which the
    process may die: one step is one system call on a destination file, one
    entry given to the log manager or one write of the log's writer thread.
    util/FileCreator.cpp (openForBlocks, openAndSetSize, setFileSize),
    util/FileWriter.cpp, ReceiverThread.cpp (processFileCmd, markBlockVerified)
    and the manager of Model/TransferLog.v. What the process has done to files
    survives its death (a crash of the whole machine is not modelled, so fsync
    does nothing here); the entries in memory do not. *)
From Verif Require Export Model.TransferLog Model.DiskIO Model.QueueMonitor.

(** What fileStatusMap_ says of a file (FileCreator.h:170-184). Who allocates
    does not matter here; waiting for the allocation is in Model/FileAlloc.v. *)
Inductive amap := AInProgress | AAllocated | AFailed.

(** Where a thread is with its current block. *)
Inductive cop :=
| OIdle                                          (* between blocks *)
| OHeader (b : block_details)                    (* header read, before openForBlocks *)
| OTrunc (b : block_details)                     (* file open, before FileCreator.cpp:27 *)
| OAlloc (b : block_details)                     (* before posix_fallocate (40) *)
| OInval (b : block_details)                     (* size set, before line 72 *)
| OCreate (b : block_details)                    (* before line 78 *)
| OWrite (b : block_details) (n : Z) (ok : bool). (* [n] bytes written; all as at the sender? *)
(** A thread: its current block, and the blocks fully written but not yet
    verified (ReceiverThread.cpp:648-663, blocksWaitingVerification_). *)
Record cthr := { ct_op : cop; ct_wait : list (block_details * bool) }.

(** Options and the sender's files: [c_src name x] is byte [x] of the file. The
    sender's bytes only say whether what is written is right; checksums and
    tags are taken to find every wrong byte. *)
Record ccfg := {
  c_prealloc : bool;                    (* shouldPreallocateFiles *)
  c_delete : bool;                      (* delete_extra_files *)
  c_verify : bool;                      (* checksums or tags are in use *)
  c_src : list Z -> Z -> Z
}.
Record cstate := {
  cs_disk : list Z -> option (list Z);  (* content by name relative to the root *)
  cs_map : Z -> option amap;
  cs_log : tlm;
  cs_thr : list cthr;
  cs_marked : list block_details        (* ghost: blocks given to the log *)
}.
(** Steps; [i] is the thread, [ts] the time put in the log entry. *)
Inductive clabel :=
| CHeader (i : nat) (b : block_details)
| COpen (i : nat)
| CTrunc (i : nat)
| CAlloc (i : nat)
| CInval (i : nat) (ts : Z)
| CCreate (i : nat) (ts : Z)
| CWrite (i : nat) (bs : list Z)
| CSync (i : nat)
| CMark (i : nat) (ts : Z)
| CDrop (i : nat)
| CFail (i : nat)
| CFlush.

Definition dput (d : list Z -> option (list Z)) (n : list Z) (v : option (list Z))
  : list Z -> option (list Z) := fun m => if str_eqb m n then v else d m.
Definition mput (m : Z -> option amap) (k : Z) (v : amap) : Z -> option amap :=
  fun x => if x =? k then Some v else m x.
Definition with_op (t : cthr) (op : cop) : cthr := {| ct_op := op; ct_wait := ct_wait t |}.
Definition set_thr (s : cstate) (i : nat) (t : cthr) : cstate :=
  {| cs_disk := cs_disk s; cs_map := cs_map s; cs_log := cs_log s;
     cs_thr := set_nth (cs_thr s) i t; cs_marked := cs_marked s |}.
Definition set_disk (s : cstate) (d : list Z -> option (list Z)) : cstate :=
  {| cs_disk := d; cs_map := cs_map s; cs_log := cs_log s; cs_thr := cs_thr s; cs_marked := cs_marked s |}.
Definition set_map (s : cstate) (k : Z) (v : amap) : cstate :=
  {| cs_disk := cs_disk s; cs_map := mput (cs_map s) k v; cs_log := cs_log s;
     cs_thr := cs_thr s; cs_marked := cs_marked s |}.
Definition set_log (s : cstate) (m : tlm) : cstate :=
  {| cs_disk := cs_disk s; cs_map := cs_map s; cs_log := m; cs_thr := cs_thr s; cs_marked := cs_marked s |}.
Definition add_marked (s : cstate) (b : block_details) : cstate :=
  {| cs_disk := cs_disk s; cs_map := cs_map s; cs_log := cs_log s; cs_thr := cs_thr s;
     cs_marked := b :: cs_marked s |}.
Definition with_log (s : cstate) (m : outcome tlm) : option cstate :=
  match m with Ret m' => Some (set_log s m') | _ => None end.

(** openForBlocks (FileCreator.cpp:123-168) and the beginning of openAndSetSize
    (51-66) up to the opened file; processFileCmd calls it through
    FileWriter::open (ReceiverThread.cpp:492-504). Threads that find the
    allocation in progress wait (no step). createFile (FileCreator.cpp:205-270)
    truncates: download resumption is on. *)
Definition c_open (c : ccfg) (s : cstate) (i : nat) (t : cthr) (b : block_details)
  : option cstate :=
  let name := bd_fileName b in
  let idle := set_thr s i (with_op t OIdle) in
  let existing s := (* openExistingFile for a file that is allocated *)
    match cs_disk s name with
    | Some _ => set_thr s i (with_op t (OWrite b 0 true))
    | None => set_thr s i (with_op t OIdle)
    end in
  if bd_alloc b =? TO_BE_DELETED then
    let s' := if c_delete c then set_disk s (dput (cs_disk s) name None) else s in
    Some (set_thr s' i {| ct_op := OIdle; ct_wait := ct_wait t ++ [(b, true)] |})
  else
    match cs_map s (bd_seqId b) with
    | Some AInProgress => None
    | Some AFailed => Some idle
    | Some AAllocated => Some (existing s)
    | None =>
        if bd_alloc b =? EXISTS_CORRECT_SIZE
        then Some (existing (set_map s (bd_seqId b) AAllocated))
        else if bd_alloc b =? NOT_EXISTS
        then Some (set_thr (set_disk (set_map s (bd_seqId b) AInProgress)
                                     (dput (cs_disk s) name (Some [])))
                           i (with_op t (OTrunc b)))
        else match cs_disk s name with
             | Some _ => Some (set_thr (set_map s (bd_seqId b) AInProgress) i (with_op t (OTrunc b)))
             | None => Some (set_thr (set_map s (bd_seqId b) AFailed) i (with_op t OIdle))
             end
    end.

(** setFileSize, FileCreator.cpp:17-31. *)
Definition cut_size (c : ccfg) (size : Z) (f : list Z) : list Z :=
  if size <? zlen f then file_truncate f (if c_prealloc c then size else 0) else f.
(** setFileSize, FileCreator.cpp:32-48. *)
Definition grow_size (c : ccfg) (size : Z) (f : list Z) : list Z :=
  if (size =? 0) || negb (c_prealloc c) then f else file_allocate f size.
(** A system call on the file [name] that is open; after unlink it no longer
    touches what the name denotes. *)
Definition on_file (d : list Z -> option (list Z)) (name : list Z) (g : list Z -> list Z)
  : list Z -> option (list Z) :=
  match d name with Some f => dput d name (Some (g f)) | None => d end.

(** The log entry for a verified block: markBlockVerified,
    ReceiverThread.cpp:668-682. *)
Definition mark_entry (ts : Z) (b : block_details) (m : tlm) : outcome tlm :=
  if bd_alloc b =? TO_BE_DELETED then addFileInvalidationEntry ts (bd_seqId b) m
  else addBlockWriteEntry ts (bd_seqId b) (bd_offset b) (bd_dataSize b) m.
(** FileCreator.cpp:78-85. *)
Definition create_entry (ts : Z) (b : block_details) (m : tlm) : outcome tlm :=
  if (bd_alloc b =? EXISTS_TOO_LARGE) || (bd_alloc b =? NOT_EXISTS)
  then addFileCreationEntry ts (bd_fileName b) (bd_seqId b) (bd_fileSize b) m
  else addFileResizeEntry ts (bd_seqId b) (bd_fileSize b) m.

(** Are these the sender's bytes from [pos] on? *)
Fixpoint right_bytes (src : Z -> Z) (pos : Z) (bs : list Z) : bool :=
  match bs with
  | [] => true
  | x :: r => (x =? src pos) && right_bytes src (pos + 1) r
  end.

(** One step; [None]: not possible in this state (or the process has died in
    the log encoder, see C17). *)
Definition cstep (c : ccfg) (l : clabel) (s : cstate) : option cstate :=
  let thr i (k : cthr -> option cstate) :=
    match nth_error (cs_thr s) i with Some t => k t | None => None end in
  match l with
  | CHeader i b => thr i (fun t =>
      match ct_op t with OIdle => Some (set_thr s i (with_op t (OHeader b))) | _ => None end)
  | COpen i => thr i (fun t =>
      match ct_op t with OHeader b => c_open c s i t b | _ => None end)
  | CTrunc i => thr i (fun t =>
      match ct_op t with
      | OTrunc b => Some (set_thr (set_disk s (on_file (cs_disk s) (bd_fileName b)
                                                 (cut_size c (bd_fileSize b))))
                                  i (with_op t (OAlloc b)))
      | _ => None end)
  | CAlloc i => thr i (fun t =>
      match ct_op t with
      | OAlloc b => Some (set_thr (set_disk s (on_file (cs_disk s) (bd_fileName b)
                                                 (grow_size c (bd_fileSize b))))
                                  i (with_op t (OInval b)))
      | _ => None end)
  | CInval i ts => thr i (fun t =>
      match ct_op t with
      | OInval b =>
          with_log (set_thr s i (with_op t (OCreate b)))
            (if bd_alloc b =? EXISTS_TOO_LARGE
             then addFileInvalidationEntry ts (bd_prevSeqId b) (cs_log s) else Ret (cs_log s))
      | _ => None end)
  | CCreate i ts => thr i (fun t =>
      match ct_op t with
      | OCreate b =>
          with_log (set_thr (set_map s (bd_seqId b) AAllocated) i (with_op t (OWrite b 0 true)))
            (create_entry ts b (cs_log s))
      | _ => None end)
  | CWrite i bs => thr i (fun t =>
      match ct_op t with
      | OWrite b n ok =>
          if n + zlen bs <=? bd_dataSize b
          then Some (set_thr (set_disk s (on_file (cs_disk s) (bd_fileName b)
                                            (fun f => file_put f (bd_offset b + n) bs)))
                 i (with_op t (OWrite b (n + zlen bs)
                      (ok && right_bytes (c_src c (bd_fileName b)) (bd_offset b + n) bs))))
          else None
      | _ => None end)
  | CSync i => thr i (fun t =>
      match ct_op t with
      | OWrite b n ok =>
          if n =? bd_dataSize b
          then Some (set_thr s i {| ct_op := OIdle; ct_wait := ct_wait t ++ [(b, ok)] |})
          else None
      | _ => None end)
  | CMark i ts => thr i (fun t =>
      match ct_wait t with
      | (b, ok) :: r =>
          if negb (c_verify c) || ok
          then with_log (set_thr (add_marked s b) i {| ct_op := ct_op t; ct_wait := r |})
                        (mark_entry ts b (cs_log s))
          else None
      | [] => None end)
  | CDrop i => thr i (fun t => Some (set_thr s i {| ct_op := ct_op t; ct_wait := [] |}))
  | CFail i => thr i (fun t =>
      match ct_op t with
      | OTrunc b | OAlloc b | OInval b | OCreate b =>
          Some (set_thr (set_map s (bd_seqId b) AFailed) i (with_op t OIdle))
      | _ => Some (set_thr s i (with_op t OIdle)) end)
  | CFlush => Some (set_log s (writeEntries (cs_log s)))
  end.
Fixpoint csteps (c : ccfg) (ls : list clabel) (s : cstate) : option cstate :=
  match ls with
  | [] => Some s
  | l :: r => match cstep c l s with Some s' => csteps c r s' | None => None end
  end.

(** A session begins: nothing is allocated, [n] threads are idle. *)
Definition c_begin (n : nat) (d : list Z -> option (list Z)) (m : tlm) : cstate :=
  {| cs_disk := d; cs_map := fun _ => None; cs_log := m;
     cs_thr := repeat {| ct_op := OIdle; ct_wait := [] |} n; cs_marked := [] |}.
(** The process dies: of the entries in memory the writer thread may have
    written any number of bytes (TransferLogManager.cpp:366-413). *)
Definition log_after_death (k : nat) (s : cstate) : list Z :=
  lf_data (fwrite (tm_file (cs_log s)) (firstn k (concat (tm_entries (cs_log s))))).
(** What recovery finds on this disk. *)
Definition disk_opts (c : ccfg) (rid : list Z) (config : Z) (d : list Z -> option (list Z)) : popts :=
  {| po_prealloc := c_prealloc c; po_dirTree := false; po_parseOnly := false;
     po_rid := rid; po_config := config;
     po_disk := fun n => match d n with Some f => Some (zlen f) | None => None end |}.
