(** The transfer log as a list of entries, written without reference to the
    encoders and the parser's state. *)
From Coq Require Export Sorted.
From Verif Require Export Spec.ProtocolSpec Spec.IntervalSpec Model.TransferLog.

Inductive log_entry :=
| LHeader (ts version : Z) (rid ip : list Z) (config : Z)
| LCreate (ts : Z) (name : list Z) (seq size : Z)
| LBlock (ts seq off size : Z)
| LInval (ts seq : Z)
| LResize (ts seq size : Z)
| LDirInval (ts : Z).

(** Variable length integer and length-prefixed string. *)
Definition vint := encodeVarU64_str.
Definition vstr (s : list Z) : list Z := vint (zlen s) ++ s.

(** Type byte and fields. *)
Definition entry_body (e : log_entry) : list Z :=
  match e with
  | LHeader ts v rid ip c => 0 :: vint ts ++ vint v ++ vstr rid ++ vstr ip ++ vint c
  | LCreate ts name seq size => 1 :: vint ts ++ vstr name ++ vint seq ++ vint size
  | LBlock ts seq off size => 2 :: vint ts ++ vint seq ++ vint off ++ vint size
  | LInval ts seq => 3 :: vint ts ++ vint seq
  | LResize ts seq size => 4 :: vint ts ++ vint seq ++ vint size
  | LDirInval ts => 5 :: vint ts
  end.
(** An entry in the file: two bytes of length, then the body. *)
Definition frame (body : list Z) : list Z := le_bytes 2 (zlen body) ++ body.
Definition entry_bytes (e : log_entry) : list Z := frame (entry_body e).
Definition log_bytes (es : list log_entry) : list Z := flat_map entry_bytes es.

(** Field values the receiver may log. *)
Definition entry_fields_ok (e : log_entry) : Prop :=
  match e with
  | LHeader ts v rid ip c => in_nat63 ts /\ in_nat31 v /\ in_nat63 c /\
                             zlen rid < 2 ^ 63 /\ zlen ip < 2 ^ 63
  | LCreate ts name seq size => in_nat63 ts /\ in_nat63 seq /\ in_nat63 size /\
                                zlen name < 2 ^ 63
  | LBlock ts seq off size => in_nat63 ts /\ in_nat63 seq /\ in_nat63 off /\ in_nat63 size
  | LInval ts seq => in_nat63 ts /\ in_nat63 seq
  | LResize ts seq size => in_nat63 ts /\ in_nat63 seq /\ in_nat63 size
  | LDirInval ts => in_nat63 ts
  end.
Definition entry_ok (e : log_entry) : Prop :=
  entry_fields_ok e /\ zlen (entry_bytes e) <= 4129.
(** Blocks that end inside the signed 64 bit range. *)
Definition block_in_range (e : log_entry) : Prop :=
  match e with LBlock _ _ off size => off + size < 2 ^ 63 | _ => True end.

(** Which function of the code writes, and which reads, each kind. *)
Definition encode_of (e : log_entry) (dest : list Z) (max : Z) : outcome (Z * list Z) :=
  match e with
  | LHeader ts v rid ip c => encodeLogHeader ts dest max rid ip c
  | LCreate ts name seq size => encodeFileCreationEntry ts dest max name seq size
  | LBlock ts seq off size => encodeBlockWriteEntry ts dest max seq off size
  | LInval ts seq => encodeFileInvalidationEntry ts dest max seq
  | LResize ts seq size => encodeFileResizeEntry ts dest max seq size
  | LDirInval ts => encodeDirectoryInvalidationEntry ts dest max
  end.
Definition omap {A B} (f : A -> B) (m : outcome (option A)) : outcome (option B) :=
  obind m (fun r => match r with None => Ret None | Some a => Ret (Some (f a)) end).
Definition decode_of (type : Z) (buf : list Z) : outcome (option log_entry) :=
  if type =? 0 then omap (fun '(ts, v, rid, ip, c) => LHeader ts v rid ip c) (decodeLogHeader buf)
  else if type =? 1 then omap (fun '(ts, n, q, z) => LCreate ts n q z) (decodeFileCreationEntry buf)
  else if type =? 2 then omap (fun '(ts, q, f, z) => LBlock ts q f z) (decodeBlockWriteEntry buf)
  else if type =? 3 then omap (fun '(ts, q) => LInval ts q) (decodeFileInvalidationEntry buf)
  else if type =? 4 then omap (fun '(ts, q, z) => LResize ts q z) (decodeFileResizeEntry buf)
  else if type =? 5 then omap LDirInval (decodeDirectoryInvalidationEntry buf)
  else Ret None.

(** ---- torn files ---- *)

(** The longest prefix of whole frames within the first [k] bytes. *)
Fixpoint whole_prefix (bodies : list (list Z)) (k : nat) : list (list Z) :=
  match bodies with
  | [] => []
  | b :: r => if (length (frame b) <=? k)%nat
              then b :: whole_prefix r (k - length (frame b)) else []
  end.
Definition body_ok (b : list Z) : Prop := 1 <= zlen b <= 4129.
Definition file_of (data : list Z) : lfile := {| lf_data := data; lf_pos := 0 |}.

(** Same report; and when the log was acceptable, the same file. *)
Definition same_recovery (m m' : outcome presult) : Prop :=
  match m, m' with
  | Ret r, Ret r' =>
      pr_status r = pr_status r' /\ pr_infos r = pr_infos r' /\ pr_ip r = pr_ip r' /\
      (pr_status r <> INVALID_LOG -> pr_file r = pr_file r')
  | Crash, Crash => True
  | Undef, Undef => True
  | _, _ => False
  end.

(** ---- sessions ---- *)
Definition matches (o : popts) (e : log_entry) : Prop :=
  match e with
  | LHeader _ _ rid _ c => rid = po_rid o /\ c = po_config o
  | _ => False
  end.
(** A header of another session or a directory invalidation. *)
Definition resets (o : popts) (e : log_entry) : Prop :=
  match e with
  | LHeader _ _ rid _ c => ~ (rid = po_rid o /\ c = po_config o)
  | LDirInval _ => True
  | _ => False
  end.
(** [seg] is what counts of [es]: from the first matching header after the
    last reset (everything when there is no reset). *)
Definition current_session (o : popts) (es seg : list log_entry) : Prop :=
  Forall (fun e => ~ resets o e) seg /\
  ((es = seg /\ (seg = [] \/ exists h r, seg = h :: r /\ matches o h)) \/
   (exists pre r skipped h rest,
      es = pre ++ r :: skipped ++ seg /\ resets o r /\
      Forall (fun e => ~ matches o e) skipped /\
      seg = h :: rest /\ matches o h)).

(** ---- what recovery may report ---- *)

(** Entries that end the life of what was logged for [seq]. *)
Definition ends (seq : Z) (e : log_entry) : Prop :=
  match e with
  | LCreate _ _ q _ => q = seq
  | LInval _ q => q = seq
  | _ => False
  end.
(** The current incarnation of [seq] in [seg]: its creation and what follows. *)
Definition incarnation (seg : list log_entry) (seq : Z) (name : list Z) (size : Z)
    (post : list log_entry) : Prop :=
  exists pre ts, seg = pre ++ LCreate ts name seq size :: post /\
                 Forall (fun e => ~ ends seq e) post.
(** Byte [x] is in a block logged for [seq]. *)
Definition logged (post : list log_entry) (seq x : Z) : Prop :=
  exists ts off size, In (LBlock ts seq off size) post /\ off <= x < off + size.
(** The file created by that entry is on disk as it must be. *)
Definition present (o : popts) (name : list Z) (size dsize : Z) : Prop :=
  po_disk o name = Some dsize /\ (po_prealloc o = true -> size <= dsize).

(** What recovery must report for the entries that count: one description for
    each current file that is on disk as it must be, with exactly the bytes
    logged for it, in increasing order of sequence id. *)
Record faithful (o : popts) (seg : list log_entry) (infos : list file_chunks) : Prop := {
  fa_reported : forall f, In f infos ->
    exists name size post,
      incarnation seg (fc_seqId f) name size post /\ present o name size (fc_fileSize f) /\
      fc_fileName f = name /\
      (forall x, covered (fc_chunks f) x <-> logged post (fc_seqId f) x) /\
      separated (fc_chunks f) /\
      (forall c, In c (fc_chunks f) -> 0 <= iv_start c <= iv_end c /\ iv_end c <= fc_fileSize f);
  fa_complete : forall seq name size post dsize,
    incarnation seg seq name size post -> present o name size dsize ->
    exists f, In f infos /\ fc_seqId f = seq /\ fc_fileName f = name /\ fc_fileSize f = dsize /\
      forall x, covered (fc_chunks f) x <-> logged post seq x;
  fa_sorted : StronglySorted Z.lt (map fc_seqId infos)
}.
(** The files recovery must mark as gone. *)
Definition gone (o : popts) (seg : list log_entry) (seq : Z) : Prop :=
  exists name size post, incarnation seg seq name size post /\
    forall dsize, ~ present o name size dsize.

(** Files on disk: sizes are 64 bit, names are bounded by the system. *)
Definition disk_ok (o : popts) : Prop :=
  forall name d, po_disk o name = Some d -> in_nat63 d /\ zlen name <= 4097.
(** The file is complete: a single piece, from 0 to its size. *)
Definition complete (f : file_chunks) : Prop :=
  exists c, fc_chunks f = [c] /\ iv_end c - iv_start c = fc_fileSize f.

(** The options of a manager's own recovery. *)
Definition own_opts (o : popts) (m : tlm) : popts :=
  {| po_prealloc := po_prealloc o; po_dirTree := po_dirTree o; po_parseOnly := false;
     po_rid := tm_rid m; po_config := tm_config m; po_disk := po_disk o |}.
(** An open file holding these entries, positioned at its end. *)
Definition holds (f : lfile) (es : list log_entry) : Prop :=
  lf_data f = log_bytes es /\ lf_pos f = zlen (log_bytes es).
