(** When a block may be counted as received: read off the record of what the
    receiver did on a connection, in order. *)
From Verif Require Export Model.RecvConn.

(** The bytes written during a stretch of the record. *)
Definition written (l : list revent) : list Z :=
  flat_map (fun e => match e with RWrite bs => bs | _ => [] end) l.
(** Nothing of another block in it: no header and no block completed. *)
Definition same_block (l : list revent) : Prop :=
  forall e, In e l -> match e with RHeader _ | RStored => False | _ => True end.
(** Are checksums on? [sum0] at first, then as the last settings say. *)
Definition checksums (sum0 : bool) (l : list revent) : bool :=
  fold_left (fun s e => match e with RSettings x => st_enableChecksum x | _ => s end) l sum0.

(** Record [l] ends in a state where [b] may be confirmed: its header was accepted,
    all its bytes were written and the file closed, and then the checksum of
    exactly these bytes arrived, or (no checksums, but encryption tags) a tag was
    verified. *)
Definition may_confirm (sum0 tags : bool) (l : list revent) (b : block_details) : Prop :=
  exists a m s, l = a ++ RHeader b :: m ++ RStored :: s /\ same_block m /\
    zlen (written m) = bd_dataSize b /\
    (if checksums sum0 a
     then exists s1 s2 got, s = s1 ++ RFooter got :: s2 /\ same_block s1 /\
            got = to_i32 (crc32c (written m) 0)
     else tags = true -> In RTag s).
(** A partly received block may count with [n] bytes: exactly these were written. *)
Definition may_count_part (sum0 tags : bool) (l : list revent) (b : block_details) (n : Z) : Prop :=
  tags = false /\
  exists a m, l = a ++ RHeader b :: m /\ same_block m /\ zlen (written m) = n /\ checksums sum0 a = false.
Definition sound_record (sum0 tags : bool) (l : list revent) : Prop :=
  (forall pre b post, l = pre ++ RVerified b :: post -> may_confirm sum0 tags pre b) /\
  (forall pre b n post, l = pre ++ RPartial b n :: post -> may_count_part sum0 tags pre b n).
