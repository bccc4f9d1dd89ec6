(** What confirmations should do to the sender's blocks and statistics. *)
From Verif Require Export Model.History Spec.Sums.

(** A confirmation is about block [h]: it names its file and position, or comes
    from a receiver too old to name the block. *)
Definition about (c : checkpoint) (h : hsrc) : bool :=
  negb (ck_hasSeqId c) ||
  ((ck_lastBlockSeqId c =? s_seqId (h_src h)) && (ck_lastBlockOffset c =? s_offset (h_src h))).

(** [new] is block [old] with the first [r] bytes dropped. *)
Definition shortened (r : Z) (old new : hsrc) : Prop :=
  s_name (h_src new) = s_name (h_src old) /\
  s_seqId (h_src new) = s_seqId (h_src old) /\
  s_fileSize (h_src new) = s_fileSize (h_src old) /\
  s_alloc (h_src new) = s_alloc (h_src old) /\
  s_prevSeqId (h_src new) = s_prevSeqId (h_src old) /\
  s_offset (h_src new) = s_offset (h_src old) + r /\
  s_size (h_src new) = s_size (h_src old) - r.

(** The blocks that come back: the next unconfirmed one without the bytes
    confirmed for it, all later ones whole, each once. *)
Inductive come_back (c : checkpoint) : list hsrc -> list hsrc -> Prop :=
| CB_none : come_back c [] []
| CB_some h h' l l' :
    shortened (if about c h then ck_lastBlockReceivedBytes c else 0) h h' ->
    Forall2 (shortened 0) l l' ->
    come_back c (h :: l) (h' :: l').

(** When a confirmation contradicts what was sent or confirmed before. *)
Definition contradicts (sent : list hsrc) (last : option checkpoint) (c : checkpoint) : Prop :=
  Z.of_nat (length sent) < ck_numBlocks c \/
  exists l, last = Some l /\
    (ck_numBlocks c < ck_numBlocks l \/
     (ck_numBlocks c = ck_numBlocks l /\
      ck_lastBlockSeqId c = ck_lastBlockSeqId l /\ ck_lastBlockOffset c = ck_lastBlockOffset l /\
      ck_lastBlockReceivedBytes c <> ck_lastBlockReceivedBytes l)).

(** All blocks the sender knows. *)
Definition flights (l : list (option hsrc)) : list hsrc :=
  flat_map (fun o => match o with Some h => [h] | None => [] end) l.
Definition all_blocks (w : sender) : list hsrc :=
  sn_queue w ++ flights (sn_flight w) ++ flat_map hi_list (sn_hist w) ++ sn_failed w.

(** A block's identity: the file and the byte range it was queued with. *)
Definition ident (h : hsrc) : list Z * Z * Z * Z :=
  (s_name (h_src h), s_seqId (h_src h), h_o h, h_n h).
Fixpoint discovered (l : list sact) : list (list Z * Z * Z * Z) :=
  match l with
  | [] => []
  | ADiscover s :: r => (s_name s, s_seqId s, s_offset s, s_size s) :: discovered r
  | _ :: r => discovered r
  end.

(** Bytes a step confirmed in part: how far it moved the start of blocks. *)
Definition starts (w : sender) : Z := zsum (fun h => s_offset (h_src h)) (all_blocks w).
Definition thread_of (a : sact) : option nat :=
  match a with
  | ADiscover _ => None
  | ATake i _ _ | ASend i _ | ALocal i _ | AGlobal i _ | AReturn i | AAckAll i
  | AError i _ | AHeader i _ => Some i
  end.
Fixpoint partial_bytes (i : nat) (w : sender) (l : list sact) : Z :=
  match l with
  | [] => 0
  | a :: r =>
      match sn_step w a with
      | Some (Ret w') =>
          (if match thread_of a with Some j => Nat.eqb i j | None => false end
           then starts w' - starts w else 0) + partial_bytes i w' r
      | _ => 0
      end
  end.

(** Bytes of the blocks thread [i] has sent completely and that were not taken
    back. *)
Definition sent_whole (h : hsrc) : bool := st_local (h_st h) =? OK.
Definition sent_bytes (i : nat) (w : sender) : Z :=
  match nth_error (sn_hist w) i with
  | Some hi => zsum (fun h => s_size (h_src h)) (filter sent_whole (hi_list hi))
  | None => 0
  end.
Definition effective (i : nat) (w : sender) : Z :=
  match nth_error (sn_stats w) i with Some t => st_effData t | None => 0 end.

(** Only real files are discovered (no deletion entries). *)
Definition files_only (l : list sact) : Prop :=
  forall s, In (ADiscover s) l -> s_alloc s <> TO_BE_DELETED.

(** [h] is recorded by some thread as sent to the receiver. *)
Definition in_history (w : sender) (h : hsrc) : Prop :=
  exists hi, In hi (sn_hist w) /\ In h (hi_list hi).

(** The confirmation the sender makes up to return unconfirmed blocks
    contradicts the last one received. *)
Definition return_refused (hi : history) : Prop :=
  contradicts (hi_list hi) (hi_last hi)
    {| ck_port := 0; ck_numBlocks := hi_acked hi; ck_lastBlockSeqId := 0;
       ck_lastBlockOffset := 0; ck_lastBlockReceivedBytes := 0; ck_hasSeqId := false |}.

(** How often thread [i] tried to send a block. *)
Definition attempts (i : nat) (l : list sact) : Z :=
  zsum (fun a => match a with ASend j _ => if Nat.eqb j i then 1 else 0 | _ => 0 end) l.
