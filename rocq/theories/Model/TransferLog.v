(** The receiver's transfer log: util/TransferLogManager.cpp and .h.

    Not modelled: failing system calls (every read, write, ftruncate, lseek
    and fsync succeeds and transfers all bytes that exist, except the write of
    a negative count discussed at [writeLogHeader]), opening and locking
    (TransferLogManager.cpp:260-290), the writer thread's timing (its effect,
    appending whole batches in order, is [writeEntries]), and the printing done
    in parse-only mode. *)
From Verif Require Export Model.Intervals Model.Stats Model.SourceQueue.

(** EntryType, TransferLogManager.h:117-124; WLOG_VERSION,
    TransferLogManager.cpp:28; kMaxEntryLength, TransferLogManager.h:128 with
    PATH_MAX = 4096. *)
Definition HEADER := 0.
Definition FILE_CREATION := 1.
Definition BLOCK_WRITE := 2.
Definition FILE_INVALIDATION := 3.
Definition FILE_RESIZE := 4.
Definition DIRECTORY_INVALIDATION := 5.
Definition WLOG_VERSION := 2.
Definition kMaxEntryLength := 2 + 1 + 10 + 4096 + 2 * 10.

(** ---- entry encoders ---- *)

(** The common text of the encode functions, e.g. TransferLogManager.cpp:158-174:
    leave two bytes for the length, WDT_CHECK_GE(max, size + 1), store the
    type, encode the fields, store the length as int16_t. Returns the number
    of bytes ([-1] on failure) and the buffer afterwards. *)
Definition encodeAfterLength (type : Z) (E : encoder) (dest : list Z) (max : Z)
  : outcome (Z * list Z) :=
  if max <? 2 + 1 then Crash
  else match upd dest 2 type with
  | None => Undef
  | Some dest1 =>
      obind (E dest1 max 3) (fun r =>
      if negb (er_ok r) then Ret (-1, er_buf r)
      else match store (er_buf r) 0 (le_bytes 2 (er_pos r - 2)) with
           | None => Undef
           | Some d => Ret (er_pos r, d)
           end)
  end.

(** encodeLogHeader, TransferLogManager.cpp:37-60. This one encodes through
    [ptr = dest + 2] with [max - 2]. [ts] is timestampInMicroseconds(),
    TransferLogManager.cpp:30-35. *)
Definition encodeLogHeader (ts : Z) (dest : list Z) (max0 : Z)
    (recoveryId senderIp : list Z) (config : Z) : outcome (Z * list Z) :=
  let max := max0 - 2 in
  if max <? 1 then Crash
  else match upd (skipn 2 dest) 0 HEADER with
  | None => Undef
  | Some ptr1 =>
      obind (enc_seq (encC ts)
            (enc_seq (encC WLOG_VERSION)
            (enc_seq (encS recoveryId)
            (enc_seq (encS senderIp) (encC config)))) ptr1 max 1) (fun r =>
      if negb (er_ok r) then Ret (-1, firstn 2 dest ++ er_buf r)
      else match store (firstn 2 dest ++ er_buf r) 0 (le_bytes 2 (er_pos r)) with
           | None => Undef
           | Some d => Ret (er_pos r + 2, d)
           end)
  end.

(** encodeFileCreationEntry, TransferLogManager.cpp:79-101. *)
Definition encodeFileCreationEntry (ts : Z) (dest : list Z) (max : Z)
    (fileName : list Z) (seqId fileSize : Z) : outcome (Z * list Z) :=
  encodeAfterLength FILE_CREATION
    (enc_seq (encC ts) (enc_seq (encS fileName) (enc_seq (encC seqId) (encC fileSize))))
    dest max.
(** encodeBlockWriteEntry, TransferLogManager.cpp:120-139. *)
Definition encodeBlockWriteEntry (ts : Z) (dest : list Z) (max : Z)
    (seqId offset blockSize : Z) : outcome (Z * list Z) :=
  encodeAfterLength BLOCK_WRITE
    (enc_seq (encC ts) (enc_seq (encC seqId) (enc_seq (encC offset) (encC blockSize))))
    dest max.
(** encodeFileResizeEntry, TransferLogManager.cpp:158-174. *)
Definition encodeFileResizeEntry (ts : Z) (dest : list Z) (max : Z)
    (seqId fileSize : Z) : outcome (Z * list Z) :=
  encodeAfterLength FILE_RESIZE
    (enc_seq (encC ts) (enc_seq (encC seqId) (encC fileSize))) dest max.
(** encodeFileInvalidationEntry, TransferLogManager.cpp:192-208. *)
Definition encodeFileInvalidationEntry (ts : Z) (dest : list Z) (max : Z)
    (seqId : Z) : outcome (Z * list Z) :=
  encodeAfterLength FILE_INVALIDATION (enc_seq (encC ts) (encC seqId)) dest max.
(** encodeDirectoryInvalidationEntry, TransferLogManager.cpp:223-236. *)
Definition encodeDirectoryInvalidationEntry (ts : Z) (dest : list Z) (max : Z)
  : outcome (Z * list Z) :=
  encodeAfterLength DIRECTORY_INVALIDATION (encC ts) dest max.

(** ---- entry decoders ---- *)

(** [ok && br.size() == 0], e.g. TransferLogManager.cpp:66-76. *)
Definition decode_all {A} (D : decoder A) (buf : list Z) : outcome (option A) :=
  obind (D buf) (fun r =>
  match r with
  | Some (a, []) => Ret (Some a)
  | _ => Ret None
  end).

(** decodeLogHeader, TransferLogManager.cpp:62-77. *)
Definition decodeLogHeader (buf : list Z) : outcome (option (Z * Z * list Z * list Z * Z)) :=
  decode_all (dbind decodeInt64C (fun ts => dbind decodeInt32C (fun version =>
              dbind decodeString (fun rid => dbind decodeString (fun ip =>
              dbind decodeInt64C (fun config => dret (ts, version, rid, ip, config))))))) buf.
(** decodeFileCreationEntry, TransferLogManager.cpp:103-118. *)
Definition decodeFileCreationEntry (buf : list Z) : outcome (option (Z * list Z * Z * Z)) :=
  decode_all (dbind decodeInt64C (fun ts => dbind decodeString (fun name =>
              dbind decodeInt64C (fun seq => dbind decodeInt64C (fun size =>
              dret (ts, name, seq, size)))))) buf.
(** decodeBlockWriteEntry, TransferLogManager.cpp:141-156. *)
Definition decodeBlockWriteEntry (buf : list Z) : outcome (option (Z * Z * Z * Z)) :=
  decode_all (dbind decodeInt64C (fun ts => dbind decodeInt64C (fun seq =>
              dbind decodeInt64C (fun off => dbind decodeInt64C (fun size =>
              dret (ts, seq, off, size)))))) buf.
(** decodeFileResizeEntry, TransferLogManager.cpp:176-190. *)
Definition decodeFileResizeEntry (buf : list Z) : outcome (option (Z * Z * Z)) :=
  decode_all (dbind decodeInt64C (fun ts => dbind decodeInt64C (fun seq =>
              dbind decodeInt64C (fun size => dret (ts, seq, size))))) buf.
(** decodeFileInvalidationEntry, TransferLogManager.cpp:210-221. *)
Definition decodeFileInvalidationEntry (buf : list Z) : outcome (option (Z * Z)) :=
  decode_all (dbind decodeInt64C (fun ts => dbind decodeInt64C (fun seq =>
              dret (ts, seq)))) buf.
(** decodeDirectoryInvalidationEntry, TransferLogManager.cpp:239-250. *)
Definition decodeDirectoryInvalidationEntry (buf : list Z) : outcome (option Z) :=
  decode_all decodeInt64C buf.

(** ---- std::map<int64_t, T> and std::set<int64_t>, kept sorted by key ---- *)
Fixpoint zfind {A} (k : Z) (m : list (Z * A)) : option A :=
  match m with
  | [] => None
  | (k', a) :: r => if k =? k' then Some a else zfind k r
  end.
(** map::emplace: an existing entry is left as it is. *)
Fixpoint zemplace {A} (k : Z) (a : A) (m : list (Z * A)) : list (Z * A) :=
  match m with
  | [] => [(k, a)]
  | (k', a') :: r => if k =? k' then m
                     else if k <? k' then (k, a) :: m else (k', a') :: zemplace k a r
  end.
(** Assignment through an iterator. *)
Definition zassign {A} (k : Z) (a : A) (m : list (Z * A)) : list (Z * A) :=
  map (fun e => if fst e =? k then (fst e, a) else e) m.
(** map::erase(key). *)
Definition zerase {A} (k : Z) (m : list (Z * A)) : list (Z * A) :=
  filter (fun e => negb (fst e =? k)) m.
Definition zmem (k : Z) (s : list Z) : bool := existsb (Z.eqb k) s.
Fixpoint zinsert (k : Z) (s : list Z) : list Z :=
  match s with
  | [] => [k]
  | k' :: r => if k =? k' then s else if k <? k' then k :: s else k' :: zinsert k r
  end.
Definition zremove (k : Z) (s : list Z) : list Z := filter (fun x => negb (x =? k)) s.

(** ---- the parser ---- *)

(** Constructor arguments and options read by LogParser,
    TransferLogManager.cpp:695-705, and the file system as seen by
    stat(rootDir_ + name): [None] when stat fails, else st_size. *)
Record popts := {
  po_prealloc : bool;   (* options_.shouldPreallocateFiles() *)
  po_dirTree : bool;    (* options_.resume_using_dir_tree *)
  po_parseOnly : bool;
  po_rid : list Z;
  po_config : Z;
  po_disk : list Z -> option Z
}.

(** Members of LogParser, TransferLogManager.h:371-380, and the [senderIp]
    reference parameter. *)
Record pstate := {
  p_hdr : bool;
  p_files : list (Z * file_chunks);
  p_sizes : list (Z * Z);
  p_invalid : list Z;
  p_ip : list Z
}.
Definition p_init (ip : list Z) : pstate :=
  {| p_hdr := false; p_files := []; p_sizes := []; p_invalid := []; p_ip := ip |}.

(** clearParsedData, TransferLogManager.cpp:748-752. *)
Definition clearParsedData (s : pstate) : pstate :=
  {| p_hdr := p_hdr s; p_files := []; p_sizes := []; p_invalid := []; p_ip := p_ip s |}.

(** processHeaderEntry, TransferLogManager.cpp:768-813. [senderIp] is only
    updated by a header that decodes (the code may also update it before a
    later field fails to decode; the log is then closed and it is not used). *)
Definition processHeaderEntry (o : popts) (buf : list Z) (max : Z) (s : pstate)
  : outcome (Z * pstate) :=
  if max <? zlen buf then Ret (INVALID_LOG, s)
  else obind (decodeLogHeader buf) (fun r =>
  match r with
  | None => Ret (INVALID_LOG, s)
  | Some (ts, version, rid, ip, config) =>
      let s1 := {| p_hdr := p_hdr s; p_files := p_files s; p_sizes := p_sizes s;
                   p_invalid := p_invalid s; p_ip := ip |} in
      let s2 := {| p_hdr := true; p_files := p_files s; p_sizes := p_sizes s;
                   p_invalid := p_invalid s; p_ip := ip |} in
      if negb (version =? WLOG_VERSION) then Ret (INVALID_LOG, s1)
      else if zlen ip =? 0 then Ret (INVALID_LOG, s1)
      else if po_parseOnly o then Ret (OK, s2)
      else if negb (str_eqb (po_rid o) rid) then Ret (INCONSISTENT_DIRECTORY, s1)
      else if negb (po_config o =? config) then Ret (INCONSISTENT_DIRECTORY, s1)
      else Ret (OK, s2)
  end).

(** processFileCreationEntry, TransferLogManager.cpp:815-868. *)
Definition processFileCreationEntry (o : popts) (buf : list Z) (s : pstate)
  : outcome (Z * pstate) :=
  if negb (p_hdr s) then Ret (INVALID_LOG, s)
  else obind (decodeFileCreationEntry buf) (fun r =>
  match r with
  | None => Ret (INVALID_LOG, s)
  | Some (ts, name, seq, size) =>
      if po_parseOnly o then Ret (OK, s)
      else if po_dirTree o then Ret (INVALID_LOG, s)
      else if (match zfind seq (p_files s) with Some _ => true | None => false end)
              || zmem seq (p_invalid s) then Ret (INVALID_LOG, s)
      else
        let invalid :=
          Ret (OK, {| p_hdr := p_hdr s; p_files := p_files s; p_sizes := p_sizes s;
                      p_invalid := zinsert seq (p_invalid s); p_ip := p_ip s |}) in
        match po_disk o name with
        | None => invalid
        | Some st_size =>
            if negb (po_prealloc o) || (size <=? st_size)
            then Ret (OK, {| p_hdr := p_hdr s;
                   p_files := zemplace seq {| fc_seqId := seq; fc_fileName := name;
                                fc_fileSize := st_size; fc_chunks := [] |} (p_files s);
                   p_sizes := zemplace seq size (p_sizes s);
                   p_invalid := p_invalid s; p_ip := p_ip s |})
            else invalid
        end
  end).

(** processFileResizeEntry, TransferLogManager.cpp:870-920. *)
Definition processFileResizeEntry (o : popts) (buf : list Z) (s : pstate)
  : outcome (Z * pstate) :=
  if negb (p_hdr s) then Ret (INVALID_LOG, s)
  else obind (decodeFileResizeEntry buf) (fun r =>
  match r with
  | None => Ret (INVALID_LOG, s)
  | Some (ts, seq, size) =>
      if po_parseOnly o then Ret (OK, s)
      else if po_dirTree o then Ret (INVALID_LOG, s)
      else match zfind seq (p_files s) with
      | None => Ret (INVALID_LOG, s)
      | Some f =>
          match zfind seq (p_sizes s) with
          | None => Crash
          | Some old =>
              if size <? old then Ret (INVALID_LOG, s)
              else if po_prealloc o && (fc_fileSize f <? size) then Ret (INVALID_LOG, s)
              else Ret (OK, {| p_hdr := p_hdr s; p_files := p_files s;
                               p_sizes := zassign seq size (p_sizes s);
                               p_invalid := p_invalid s; p_ip := p_ip s |})
          end
      end
  end).

(** processBlockWriteEntry, TransferLogManager.cpp:922-966. The sum
    [offset + blockSize] is a signed addition. *)
Definition processBlockWriteEntry (o : popts) (buf : list Z) (s : pstate)
  : outcome (Z * pstate) :=
  if negb (p_hdr s) then Ret (INVALID_LOG, s)
  else obind (decodeBlockWriteEntry buf) (fun r =>
  match r with
  | None => Ret (INVALID_LOG, s)
  | Some (ts, seq, off, size) =>
      if po_parseOnly o then Ret (OK, s)
      else if po_dirTree o then Ret (INVALID_LOG, s)
      else if zmem seq (p_invalid s) then Ret (OK, s)
      else match zfind seq (p_files s) with
      | None => Ret (INVALID_LOG, s)
      | Some f =>
          if 2 ^ 63 <=? off + size then Undef
          else if fc_fileSize f <? off + size then Ret (INVALID_LOG, s)
          else obind (mkInterval off (off + size)) (fun c =>
               Ret (OK, {| p_hdr := p_hdr s;
                 p_files := zassign seq {| fc_seqId := fc_seqId f; fc_fileName := fc_fileName f;
                              fc_fileSize := fc_fileSize f;
                              fc_chunks := fc_chunks f ++ [c] |} (p_files s);
                 p_sizes := p_sizes s; p_invalid := p_invalid s; p_ip := p_ip s |}))
      end
  end).

(** processFileInvalidationEntry, TransferLogManager.cpp:968-998. *)
Definition processFileInvalidationEntry (o : popts) (buf : list Z) (s : pstate)
  : outcome (Z * pstate) :=
  if negb (p_hdr s) then Ret (INVALID_LOG, s)
  else obind (decodeFileInvalidationEntry buf) (fun r =>
  match r with
  | None => Ret (INVALID_LOG, s)
  | Some (ts, seq) =>
      if po_parseOnly o then Ret (OK, s)
      else if po_dirTree o then Ret (INVALID_LOG, s)
      else if (match zfind seq (p_files s) with Some _ => false | None => true end)
              && negb (zmem seq (p_invalid s)) then Ret (INVALID_LOG, s)
      else Ret (OK, {| p_hdr := p_hdr s; p_files := zerase seq (p_files s);
                       p_sizes := p_sizes s; p_invalid := zremove seq (p_invalid s);
                       p_ip := p_ip s |})
  end).

(** processDirectoryInvalidationEntry, TransferLogManager.cpp:1000-1013. *)
Definition processDirectoryInvalidationEntry (o : popts) (buf : list Z) (s : pstate)
  : outcome (Z * pstate) :=
  obind (decodeDirectoryInvalidationEntry buf) (fun r =>
  match r with
  | None => Ret (INVALID_LOG, s)
  | Some ts =>
      if po_parseOnly o then Ret (OK, s)
      else Ret (INCONSISTENT_DIRECTORY,
                {| p_hdr := false; p_files := p_files s; p_sizes := p_sizes s;
                   p_invalid := p_invalid s; p_ip := p_ip s |})
  end).

(** One round of the loop once an entry has been read,
    TransferLogManager.cpp:1064-1108: the new status and state. [entry] is not
    empty. A type byte outside 0-7 is converted to the enum without being one
    of its values; the model takes the [default] branch. *)
Definition parseEntry (o : popts) (entry : list Z) (status : Z) (s : pstate)
  : outcome (Z * pstate) :=
  match entry with
  | [] => Undef
  | type :: buf =>
      if (status =? INCONSISTENT_DIRECTORY) && negb (type =? HEADER) then Ret (status, s)
      else
        obind (if type =? HEADER then processHeaderEntry o buf (kMaxEntryLength - 1) s
               else if type =? FILE_CREATION then processFileCreationEntry o buf s
               else if type =? BLOCK_WRITE then processBlockWriteEntry o buf s
               else if type =? FILE_RESIZE then processFileResizeEntry o buf s
               else if type =? FILE_INVALIDATION then processFileInvalidationEntry o buf s
               else if type =? DIRECTORY_INVALIDATION
                    then processDirectoryInvalidationEntry o buf s
               else Ret (INVALID_LOG, s)) (fun r =>
        let '(st, s') := r in
        if st =? INCONSISTENT_DIRECTORY then Ret (st, clearParsedData s')
        else Ret (st, s'))
  end.

(** ---- the log file ---- *)

(** An open file: content and file offset. *)
Record lfile := { lf_data : list Z; lf_pos : Z }.
(** read(2). *)
Definition fread (f : lfile) (n : Z) : list Z * lfile :=
  let bs := slice (lf_data f) (lf_pos f) n in
  (bs, {| lf_data := lf_data f; lf_pos := lf_pos f + zlen bs |}).
(** write(2) at the file offset (the log is not opened with O_APPEND). *)
Definition fwrite (f : lfile) (bs : list Z) : lfile :=
  let d := lf_data f ++ repeat 0 (Z.to_nat (lf_pos f - zlen (lf_data f))) in
  {| lf_data := firstn (Z.to_nat (lf_pos f)) d ++ bs
                ++ skipn (Z.to_nat (lf_pos f) + length bs) d;
     lf_pos := lf_pos f + zlen bs |}.
(** ftruncate(2) leaves the offset. *)
Definition ftruncate (f : lfile) (n : Z) : lfile :=
  {| lf_data := firstn (Z.to_nat n) (lf_data f)
                ++ repeat 0 (Z.to_nat (n - zlen (lf_data f)));
     lf_pos := lf_pos f |}.
(** lseek(2) with SEEK_SET. *)
Definition lseek (f : lfile) (n : Z) : lfile := {| lf_data := lf_data f; lf_pos := n |}.

(** truncateExtraBytesAtEnd, TransferLogManager.cpp:724-746. *)
Definition truncateExtraBytesAtEnd (f : lfile) (extra : Z) : lfile :=
  let fileSize := zlen (lf_data f) in
  lseek (ftruncate f (fileSize - extra)) (fileSize - extra).

(** The loop of parseLog, TransferLogManager.cpp:1020-1109; [inl]: left by
    [break], [inr]: left by [return INVALID_LOG]. One round reads at least two
    bytes, so the content length is enough fuel. *)
Fixpoint parse_loop (fuel : nat) (o : popts) (f : lfile) (status : Z) (s : pstate)
  : outcome ((Z * lfile * pstate) + (lfile * pstate)) :=
  match fuel with
  | O => Undef
  | S fuel' =>
      let '(szb, f1) := fread f 2 in
      if zlen szb =? 0 then Ret (inl (status, f1, s))
      else if negb (zlen szb =? 2)
      then Ret (inl (status, if po_parseOnly o then f1
                             else truncateExtraBytesAtEnd f1 (zlen szb), s))
      else
        let entrySize := sx 2 (le_value szb) in
        if (entrySize <=? 0) || (kMaxEntryLength <? entrySize) then Ret (inr (f1, s))
        else
          let '(entry, f2) := fread f1 entrySize in
          if negb (zlen entry =? entrySize)
          then Ret (inl (status, if po_parseOnly o then f2
                                 else truncateExtraBytesAtEnd f2 (zlen entry + 2), s))
          else
            obind (parseEntry o entry status s) (fun r =>
            let '(st, s') := r in
            if st =? INVALID_LOG then Ret (inr (f2, s'))
            else parse_loop fuel' o f2 st s')
  end.

(** writeFileInvalidationEntries, TransferLogManager.cpp:707-722. [now seq] is
    the time at which the entry of [seq] is encoded. *)
Fixpoint writeFileInvalidationEntries (now : Z -> Z) (f : lfile) (seqIds : list Z)
  : outcome lfile :=
  match seqIds with
  | [] => Ret f
  | seq :: r =>
      obind (encodeFileInvalidationEntry (now seq) (repeat 0 (Z.to_nat kMaxEntryLength))
               kMaxEntryLength seq) (fun e =>
      writeFileInvalidationEntries now (fwrite f (slice (snd e) 0 (fst e))) r)
  end.

(** Result of parseLog: status, reported infos, sender ip, the file. *)
Record presult := {
  pr_status : Z;
  pr_infos : list file_chunks;
  pr_ip : list Z;
  pr_file : lfile
}.

(** parseLog, TransferLogManager.cpp:1015-1124. *)
Definition parseLog (now : Z -> Z) (o : popts) (f : lfile) (ip : list Z) : outcome presult :=
  obind (parse_loop (S (length (lf_data f))) o f OK (p_init ip)) (fun r =>
  match r with
  | inr (f', s) => Ret {| pr_status := INVALID_LOG; pr_infos := []; pr_ip := p_ip s; pr_file := f' |}
  | inl (status, f', s) =>
      if status =? OK then
        obind (writeFileInvalidationEntries now f' (p_invalid s)) (fun f'' =>
        Ret {| pr_status := OK;
               pr_infos := map (fun e => {| fc_seqId := fc_seqId (snd e);
                                            fc_fileName := fc_fileName (snd e);
                                            fc_fileSize := fc_fileSize (snd e);
                                            fc_chunks := mergeChunks (fc_chunks (snd e)) |})
                               (p_files s);
               pr_ip := p_ip s; pr_file := f'' |})
      else Ret {| pr_status := status; pr_infos := []; pr_ip := p_ip s; pr_file := f' |}
  end).

(** ---- the manager ---- *)

(** Members of TransferLogManager, TransferLogManager.h:289-318; [tm_open] is
    [fd_ >= 0]; [tm_file] is the log (still there when closed). *)
Record tlm := {
  tm_open : bool;
  tm_file : lfile;
  tm_rid : list Z;
  tm_ip : list Z;
  tm_config : Z;
  tm_entries : list (list Z);
  tm_status : Z;
  tm_headerWritten : bool
}.
Definition tm_with_file (m : tlm) (f : lfile) : tlm :=
  {| tm_open := tm_open m; tm_file := f; tm_rid := tm_rid m; tm_ip := tm_ip m;
     tm_config := tm_config m; tm_entries := tm_entries m; tm_status := tm_status m;
     tm_headerWritten := tm_headerWritten m |}.
Definition tm_with_entries (m : tlm) (es : list (list Z)) : tlm :=
  {| tm_open := tm_open m; tm_file := tm_file m; tm_rid := tm_rid m; tm_ip := tm_ip m;
     tm_config := tm_config m; tm_entries := es; tm_status := tm_status m;
     tm_headerWritten := tm_headerWritten m |}.

Definition entry_buf : list Z := repeat 0 (Z.to_nat kMaxEntryLength).

(** writeEntriesToDiskNoLock on a copy of [entries_] which is then cleared:
    TransferLogManager.cpp:366-387 and 402-412. *)
Definition writeEntries (m : tlm) : tlm :=
  tm_with_entries (tm_with_file m (fwrite (tm_file m) (concat (tm_entries m)))) [].

(** invalidateDirectory, TransferLogManager.cpp:452-470. *)
Definition invalidateDirectory (ts : Z) (m : tlm) : outcome tlm :=
  if negb (tm_open m) then Ret m
  else obind (encodeDirectoryInvalidationEntry ts entry_buf kMaxEntryLength) (fun e =>
  Ret {| tm_open := true; tm_file := fwrite (tm_file m) (slice (snd e) 0 (fst e));
         tm_rid := tm_rid m; tm_ip := tm_ip m; tm_config := tm_config m;
         tm_entries := tm_entries m; tm_status := INCONSISTENT_DIRECTORY;
         tm_headerWritten := tm_headerWritten m |}).

(** writeLogHeader, TransferLogManager.cpp:472-493. When the header could not
    be encoded, [write(fd_, buf, -1)] writes nothing and returns -1, which
    equals [size]: the failure is not noticed. *)
Definition writeLogHeader (ts : Z) (m : tlm) : outcome tlm :=
  if negb (tm_open m) then Ret m
  else obind (encodeLogHeader ts entry_buf kMaxEntryLength (tm_rid m) (tm_ip m) (tm_config m))
  (fun e =>
  Ret {| tm_open := true;
         tm_file := if fst e <? 0 then tm_file m
                    else fwrite (tm_file m) (slice (snd e) 0 (fst e));
         tm_rid := tm_rid m; tm_ip := tm_ip m; tm_config := tm_config m;
         tm_entries := tm_entries m; tm_status := OK; tm_headerWritten := true |}).

(** [entries_.emplace_back(buf, size)]: std::string(buf, -1) throws
    std::length_error, which nothing catches. *)
Definition emplace_entry (m : tlm) (e : Z * list Z) : outcome tlm :=
  if fst e <? 0 then Crash
  else Ret (tm_with_entries m (tm_entries m ++ [slice (snd e) 0 (fst e)])).

(** addFileCreationEntry, TransferLogManager.cpp:495-508. *)
Definition addFileCreationEntry (ts : Z) (fileName : list Z) (seqId fileSize : Z) (m : tlm)
  : outcome tlm :=
  if negb (tm_open m) || negb (tm_headerWritten m) then Ret m
  else obind (encodeFileCreationEntry ts entry_buf kMaxEntryLength fileName seqId fileSize)
             (emplace_entry m).
(** addBlockWriteEntry, TransferLogManager.cpp:510-523. *)
Definition addBlockWriteEntry (ts : Z) (seqId offset blockSize : Z) (m : tlm) : outcome tlm :=
  if negb (tm_open m) || negb (tm_headerWritten m) then Ret m
  else obind (encodeBlockWriteEntry ts entry_buf kMaxEntryLength seqId offset blockSize)
             (emplace_entry m).
(** addFileResizeEntry, TransferLogManager.cpp:525-536. *)
Definition addFileResizeEntry (ts : Z) (seqId fileSize : Z) (m : tlm) : outcome tlm :=
  if negb (tm_open m) || negb (tm_headerWritten m) then Ret m
  else obind (encodeFileResizeEntry ts entry_buf kMaxEntryLength seqId fileSize)
             (emplace_entry m).
(** addFileInvalidationEntry, TransferLogManager.cpp:538-548: does not look at
    [headerWritten_]. *)
Definition addFileInvalidationEntry (ts : Z) (seqId : Z) (m : tlm) : outcome tlm :=
  if negb (tm_open m) then Ret m
  else obind (encodeFileInvalidationEntry ts entry_buf kMaxEntryLength seqId)
             (emplace_entry m).

(** verifySenderIp, TransferLogManager.cpp:420-443. [disabled] is
    disable_sender_verification_during_resumption. *)
Definition verifySenderIp (ts : Z) (disabled : bool) (cur : list Z) (m : tlm)
  : outcome (bool * tlm) :=
  if negb (tm_open m) then Ret (false, m)
  else
    let set m' := {| tm_open := tm_open m'; tm_file := tm_file m'; tm_rid := tm_rid m';
                     tm_ip := cur; tm_config := tm_config m'; tm_entries := tm_entries m';
                     tm_status := tm_status m'; tm_headerWritten := tm_headerWritten m' |} in
    if disabled || (zlen (tm_ip m) =? 0) || str_eqb (tm_ip m) cur then Ret (true, set m)
    else obind (invalidateDirectory ts m) (fun m' => Ret (false, set m')).

(** parseVerifyAndFix, TransferLogManager.cpp:587-610, with the arguments of
    parseAndMatch, 579-585 ([po_parseOnly o = false]); [ts] is the time of the
    directory invalidation. *)
Definition parseVerifyAndFix (now : Z -> Z) (ts : Z) (o : popts) (m : tlm)
  : outcome (Z * list file_chunks * tlm) :=
  if negb (tm_open m) then Ret (INVALID_LOG, [], m)
  else obind (parseLog now o (tm_file m) (tm_ip m)) (fun r =>
  let m1 := {| tm_open := tm_open m; tm_file := pr_file r; tm_rid := tm_rid m;
               tm_ip := pr_ip r; tm_config := tm_config m; tm_entries := tm_entries m;
               tm_status := pr_status r; tm_headerWritten := tm_headerWritten m |} in
  if pr_status r =? INVALID_LOG
  then Ret (INVALID_LOG, pr_infos r,
            {| tm_open := false; tm_file := pr_file r; tm_rid := tm_rid m; tm_ip := pr_ip r;
               tm_config := tm_config m; tm_entries := tm_entries m;
               tm_status := INVALID_LOG; tm_headerWritten := tm_headerWritten m |})
  else if (pr_status r =? INCONSISTENT_DIRECTORY) && negb (po_parseOnly o)
  then obind (invalidateDirectory ts m1) (fun m2 => Ret (tm_status m2, pr_infos r, m2))
  else Ret (pr_status r, pr_infos r, m1)).

(** The two adds per file of compactLog, TransferLogManager.cpp:669-676. *)
Fixpoint compact_add (now : Z -> Z) (fs : list file_chunks) (m : tlm) : outcome tlm :=
  match fs with
  | [] => Ret m
  | f :: r =>
      obind (addFileCreationEntry (now (fc_seqId f)) (fc_fileName f) (fc_seqId f)
               (fc_fileSize f) m) (fun m1 =>
      obind (addBlockWriteEntry (now (fc_seqId f)) (fc_seqId f) 0 (fc_fileSize f) m1)
            (compact_add now r))
  end.

(** compactLog, TransferLogManager.cpp:612-693. The options and the directory
    come from [o0]; the recovery id and the configuration are the manager's. *)
Definition compactLog (now : Z -> Z) (ts : Z) (o0 : popts) (m : tlm) : outcome tlm :=
  if negb (tm_open m) then Ret m
  else
    let m1 := writeEntries m in
    let m2 := tm_with_file m1 (lseek (tm_file m1) 0) in
    let o := {| po_prealloc := po_prealloc o0; po_dirTree := po_dirTree o0;
                po_parseOnly := false; po_rid := tm_rid m2; po_config := tm_config m2;
                po_disk := po_disk o0 |} in
    obind (parseVerifyAndFix now ts o m2) (fun r =>
    let '(code, infos, m3) := r in
    if negb (code =? OK) then Ret m3
    else if negb (forallb (fun f => (zlen (fc_chunks f) =? 1)
                      && (getTotalChunkSize (fc_chunks f) =? fc_fileSize f)) infos)
    then Ret m3
    else
      let m4 := tm_with_file m3 (lseek (ftruncate (tm_file m3) 0) 0) in
      obind (writeLogHeader ts m4) (fun m5 =>
      obind (compact_add now infos m5) (fun m6 => Ret (writeEntries m6)))).
