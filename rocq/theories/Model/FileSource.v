(** Reading the blocks of a source file: util/FileByteSource.cpp, and the read
    loop of SenderThread::sendOneByteSource. *)
From Verif Require Export Model.Bytes Model.Stats.

(** CommonImpl.h:17. *)
Definition kDiskBlockSize : Z := 4096.

(** Members of FileByteSource (FileByteSource.h:114-135); [fs_fd]: fd_ >= 0. *)
Record fsrc := {
  fs_size : Z; fs_offset : Z; fs_bytesRead : Z; fs_aligned : bool; fs_fd : bool
}.
(** open, FileByteSource.cpp:68-97, of a file that can be opened
    (allocation status other than TO_BE_DELETED). *)
Definition fs_open (size offset : Z) (direct : bool) : fsrc :=
  {| fs_size := size; fs_offset := offset; fs_bytesRead := 0; fs_aligned := direct; fs_fd := true |}.
(** advanceOffset, FileByteSource.cpp:99-102. *)
Definition fs_advance (s : fsrc) (n : Z) : fsrc :=
  {| fs_size := fs_size s - n; fs_offset := fs_offset s + n; fs_bytesRead := fs_bytesRead s;
     fs_aligned := fs_aligned s; fs_fd := fs_fd s |}.
(** hasError and finished, FileByteSource.h:76-83. *)
Definition fs_error (s : fsrc) : bool := negb (fs_fd s).
Definition fs_finished (s : fsrc) : bool := (fs_bytesRead s =? fs_size s) && negb (fs_error s).
Definition fs_close (s : fsrc) : fsrc :=
  {| fs_size := fs_size s; fs_offset := fs_offset s; fs_bytesRead := fs_bytesRead s;
     fs_aligned := fs_aligned s; fs_fd := false |}.

(** Answer of pread: failure, or the number of bytes returned. *)
Inductive pres := PErr | PN (k : Z).
(** Answers POSIX allows for reading [asked] bytes at [pos] of a file of length
    [len]: zero only at or after the end. *)
Definition pres_ok (len pos asked : Z) (r : pres) : Prop :=
  match r with
  | PErr => True
  | PN k => 0 <= k <= asked /\ k <= Z.max 0 (len - pos) /\ (k = 0 -> len <= pos)
  end.
(** Quantities of one call of read, FileByteSource.cpp:110-122. *)
Definition fs_pos (s : fsrc) : Z := fs_offset s + fs_bytesRead s.
Definition fs_remainder (s : fsrc) : Z :=
  if fs_aligned s then Z.rem (fs_pos s) kDiskBlockSize else 0.
Definition fs_logical (bufSize : Z) (s : fsrc) : Z :=
  Z.min (bufSize - fs_remainder s) (fs_size s - fs_bytesRead s).
Definition fs_physical (bufSize : Z) (s : fsrc) : Z :=
  if fs_aligned s
  then Z.quot (fs_logical bufSize s + fs_remainder s + kDiskBlockSize - 1) kDiskBlockSize * kDiskBlockSize
  else fs_logical bufSize s.
Definition fs_seek (s : fsrc) : Z := fs_pos s - fs_remainder s.

(** What read returns: null, or a pointer into the buffer and a size. *)
Inductive rdout := RNull | RPtr (at_ size : Z).

(** read, FileByteSource.cpp:104-163. [f]: content of the file; [buf]: content
    of the thread's buffer. [Undef]: pread would write outside the buffer.
    [numRead] is an int: buffers are assumed smaller than 2^31. *)
Definition fs_read (f buf : list Z) (r : pres) (s : fsrc) : outcome (rdout * fsrc * list Z) :=
  if fs_error s || fs_finished s then Ret (RNull, s, buf)
  else
    if (fs_physical (zlen buf) s <? 0) || (zlen buf <? fs_physical (zlen buf) s) then Undef
    else
      match r with
      | PErr => Ret (RNull, fs_close s, buf)
      | PN k =>
          if k =? 0 then Ret (RNull, fs_close s, buf)
          else
            let buf' := slice f (fs_seek s) k ++ skipn (Z.to_nat k) buf in
            let size0 := k - fs_remainder s in
            let over := fs_logical (zlen buf) s <? size0 in
            if over && negb (fs_aligned s) then Crash
            else
              let size := if over then fs_logical (zlen buf) s else size0 in
              Ret (RPtr (fs_remainder s) size,
                   {| fs_size := fs_size s; fs_offset := fs_offset s;
                      fs_bytesRead := fs_bytesRead s + size; fs_aligned := fs_aligned s;
                      fs_fd := fs_fd s |}, buf')
      end.

(** The read loop of sendOneByteSource, SenderThread.cpp:358-407, when every
    socket write succeeds: [SAll]: the loop ended because the source is finished;
    [SError]: because of a read error (then the block is reported with
    BYTE_SOURCE_READ_ERROR, 408-423); the bytes are those sent. *)
Inductive sendres := SAll (sent : list Z) | SError (sent : list Z) | SPending (sent : list Z).
Fixpoint send_loop (rs : list pres) (f buf : list Z) (s : fsrc) (sent : list Z) : outcome sendres :=
  if fs_finished s then Ret (SAll sent)
  else
    match rs with
    | [] => Ret (SPending sent)
    | r :: rs' =>
        obind (fs_read f buf r s) (fun x =>
        let '(o, s', buf') := x in
        if fs_error s' then Ret (SError sent)
        else
          match o with
          | RNull => Crash                 (* WDT_CHECK(buffer && size > 0), line 369 *)
          | RPtr at_ size =>
              if size <=? 0 then Crash
              else send_loop rs' f buf' s' (sent ++ slice buf' at_ size)
          end)
    end.
(** The answers are possible for the calls that receive them. *)
Fixpoint answers_ok (rs : list pres) (f buf : list Z) (s : fsrc) : Prop :=
  match rs with
  | [] => True
  | r :: rs' =>
      pres_ok (zlen f) (fs_seek s) (fs_physical (zlen buf) s) r /\
      match fs_read f buf r s with
      | Ret (_, s', buf') => answers_ok rs' f buf' s'
      | _ => True
      end
  end.
(** With O_DIRECT: reads return whole disk blocks or reach the end of the file. *)
Definition direct_ok (len : Z) (s : fsrc) (r : pres) : Prop :=
  match r with
  | PErr => True
  | PN k => Z.rem k kDiskBlockSize = 0 \/ k = len - fs_seek s
  end.
Fixpoint answers_direct (rs : list pres) (f buf : list Z) (s : fsrc) : Prop :=
  match rs with
  | [] => True
  | r :: rs' =>
      direct_ok (zlen f) s r /\
      match fs_read f buf r s with
      | Ret (_, s', buf') => answers_direct rs' f buf' s'
      | _ => True
      end
  end.
