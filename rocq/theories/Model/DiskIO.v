(** Destination files on disk and util/FileWriter.cpp. A file is its list of
    bytes. The operating system's answers are inputs of the model. *)
From Verif Require Export Model.Bytes Model.Stats.

(** POSIX write of [bs] at [pos]: bytes between the old end and [pos] read as
    zero; an empty write changes nothing. *)
Definition file_put (f : list Z) (pos : Z) (bs : list Z) : list Z :=
  match bs with
  | [] => f
  | _ => firstn (Z.to_nat pos) (f ++ repeat 0 (Z.to_nat pos)) ++ bs ++
         skipn (Z.to_nat pos + length bs) f
  end.
(** ftruncate: cuts or extends with zeros. *)
Definition file_truncate (f : list Z) (n : Z) : list Z :=
  firstn (Z.to_nat n) (f ++ repeat 0 (Z.to_nat n)).
(** posix_fallocate(fd, 0, n): extends with zeros, never cuts. *)
Definition file_allocate (f : list Z) (n : Z) : list Z :=
  if zlen f <? n then file_truncate f n else f.

(** What ::write answers: [WN k]: [k] bytes written (at most what was asked for);
    interrupted; failed. *)
Inductive wres := WN (k : Z) | WIntr | WErr.
Definition wres_ok (asked : Z) (r : wres) : Prop :=
  match r with WN k => 0 <= k <= asked | _ => True end.

(** The open descriptor: file content and file offset; totalWritten_ and dataSize
    of the block. *)
Record fwriter := { fw_file : list Z; fw_pos : Z; fw_total : Z; fw_dataSize : Z }.

(** Result of FileWriter::write: an error code and the new state, or still in
    the loop when the given answers are used up. An answer outside [0, asked]
    cannot be given by the operating system. *)
Inductive wout := WOut (e : Z) (w : fwriter) | WPending (w : fwriter) | WImpossible.

(** The loop, FileWriter.cpp:107-126; [rest] is buf[count, size). *)
Fixpoint write_loop (rs : list wres) (rest : list Z) (w : fwriter) : wout * list wres :=
  match rest with
  | [] => (WOut OK w, rs)
  | _ =>
      match rs with
      | [] => (WPending w, [])
      | WIntr :: rs' => write_loop rs' rest w
      | WErr :: rs' => (WOut FILE_WRITE_ERROR w, rs')
      | WN k :: rs' =>
          if (0 <=? k) && (k <=? zlen rest)
          then write_loop rs' (skipn (Z.to_nat k) rest)
                 {| fw_file := file_put (fw_file w) (fw_pos w) (firstn (Z.to_nat k) rest);
                    fw_pos := fw_pos w + k; fw_total := fw_total w; fw_dataSize := fw_dataSize w |}
          else (WImpossible, rs')
      end
  end.
(** FileWriter::write, FileWriter.cpp:103-136. [skip]: options.skip_writes;
    [sync]: whether syncFileRange (138-192) succeeds. *)
Definition fw_add (w : fwriter) (n : Z) : fwriter :=
  {| fw_file := fw_file w; fw_pos := fw_pos w; fw_total := fw_total w + n;
     fw_dataSize := fw_dataSize w |}.
Definition fw_write (skip sync : bool) (rs : list wres) (w : fwriter) (data : list Z)
  : wout * list wres :=
  if skip then (WOut OK (fw_add w (zlen data)), rs)
  else
    match write_loop rs data w with
    | (WOut e w', rs') =>
        if e =? OK then
          if sync then (WOut OK (fw_add w' (zlen data)), rs')
          else (WOut FILE_WRITE_ERROR w', rs')
        else (WOut e w', rs')
    | o => o
    end.
(** FileWriter::open, FileWriter.cpp:28-56, with the descriptor of a file of
    content [f]: the descriptor is positioned at the block's offset. *)
Definition fw_open (f : list Z) (offset dataSize : Z) : fwriter :=
  {| fw_file := f; fw_pos := if 0 <? offset then offset else 0; fw_total := 0;
     fw_dataSize := dataSize |}.
(** Consecutive writes of the pieces of a block (ReceiverThread.cpp:494-533);
    stops at the first error. *)
Fixpoint fw_writes (syncs : list bool) (rs : list wres) (w : fwriter) (pieces : list (list Z))
  : wout * list wres :=
  match pieces with
  | [] => (WOut OK w, rs)
  | p :: ps =>
      match fw_write false (hd true syncs) rs w p with
      | (WOut e w', rs') =>
          if e =? OK then fw_writes (tl syncs) rs' w' ps else (WOut e w', rs')
      | o => o
      end
  end.
