(** What counts as progress of a sender thread, and which receivers are
    believable. *)
From Verif Require Export Model.SenderRetry Spec.HistorySpec.

(** Blocks the receiver last confirmed to thread [i]. *)
Definition confirmed_blocks (i : nat) (w : sender) : Z :=
  match nth_error (sn_hist w) i with
  | Some hi => match hi_last hi with Some c => ck_numBlocks c | None => 0 end
  | None => 0
  end.
(** Bytes of queued blocks confirmed without their whole block: how much less is
    left to send of the blocks than when they were found. *)
Definition confirmed_bytes (w : sender) : Z :=
  zsum (fun h => h_n h - s_size (h_src h)) (all_blocks w).
(** A checkpoint was received before. *)
Definition told (i : nat) (w : sender) : bool :=
  match nth_error (sn_hist w) i with
  | Some hi => match hi_last hi with Some _ => true | None => false end
  | None => false
  end.

(** Amount of data: blocks found and their bytes. *)
Definition found_blocks (w : sender) : Z := zlen (all_blocks w).
Definition found_bytes (w : sender) : Z := zsum h_n (all_blocks w).

(** The step from [s] to [s'] reads a checkpoint for this thread that confirms
    something new. *)
Definition gained (s : sthread) (e : sin) (s' : sthread) : bool :=
  match e with
  | ILocal _ => (confirmed_blocks (sr_i s) (sr_w s) <? confirmed_blocks (sr_i s) (sr_w s')) ||
                (confirmed_bytes (sr_w s) <? confirmed_bytes (sr_w s'))
  | _ => false
  end.
Fixpoint gains (o : sopts) (s : sthread) (l : list sin) : Z :=
  match l with
  | [] => 0
  | e :: r => match sr_step o s e with
              | Some (Ret s') => (if gained s e s' then 1 else 0) + gains o s' r
              | _ => 0
              end
  end.

(** A checkpoint that does not confirm more bytes of a block than it has. *)
Definition within (hi : history) (c : checkpoint) : Prop :=
  0 <= ck_numBlocks c /\ 0 <= ck_lastBlockReceivedBytes c /\
  forall h, nth_error (hi_list hi) (Z.to_nat (ck_numBlocks c)) = Some h -> about c h = true ->
            ck_lastBlockReceivedBytes c <= s_size (h_src h).
Definition believable (w : sender) (a : sact) : Prop :=
  match a with
  | ADiscover s => 0 <= s_size s
  | ALocal i c | AGlobal i c => forall hi, nth_error (sn_hist w) i = Some hi -> within hi c
  | ASend i _ => forall hi h c, nth_error (sn_hist w) i = Some hi -> hi_global hi = true ->
      hi_last hi = Some c -> nth_error (sn_flight w) i = Some (Some h) -> about c h = true ->
      0 <= ck_lastBlockReceivedBytes c <= s_size (h_src h)
  | _ => True
  end.
(** The block whose bytes a checkpoint confirms is the oldest one the sender
    still waits for, unless the checkpoint repeats the one before. *)
Definition truthful (hi : history) (c : checkpoint) : Prop :=
  0 < ck_lastBlockReceivedBytes c ->
  (exists l, hi_last hi = Some l /\ ck_numBlocks c = ck_numBlocks l /\
     ck_lastBlockSeqId c = ck_lastBlockSeqId l /\ ck_lastBlockOffset c = ck_lastBlockOffset l) \/
  exists h, nth_error (hi_list hi) (Z.to_nat (ck_numBlocks c)) = Some h /\ about c h = true.

Definition honest_event (s : sthread) (e : sin) : Prop :=
  match e with
  | IOther a => believable (sr_w s) a
  | ISend r => believable (sr_w s) (ASend (sr_i s) r)
  | ILocal (LGood c) =>
      believable (sr_w s) (ALocal (sr_i s) c) /\
      forall hi, nth_error (sn_hist (sr_w s)) (sr_i s) = Some hi -> truthful hi c
  | _ => True
  end.
Fixpoint honest (o : sopts) (s : sthread) (l : list sin) : Prop :=
  match l with
  | [] => True
  | e :: r => honest_event s e /\
              match sr_step o s e with Some (Ret s') => honest o s' r | _ => True end
  end.

(** ** Waiting *)

(** A time-out: nothing was read, nobody aborted, and the system reports [n]
    unacknowledged bytes. *)
Definition timed_out (x : turn) (n : Z) : Prop :=
  tn_read x < 0 /\ tn_abort x = OK /\ tn_code x = WDT_TIMEOUT /\ tn_unacked x = n.
(** [n] unacknowledged bytes at first, fewer at each of the time-outs [l], never
    none. *)
Inductive draining : Z -> list turn -> Prop :=
| Dr_nil n : draining n []
| Dr_cons n x m l : timed_out x m -> 0 < m < n -> draining m l -> draining n (x :: l).
(** The system never reports more unacknowledged bytes than before. *)
Inductive no_growth : Z -> list turn -> Prop :=
| Ng_nil n : no_growth n []
| Ng_cons n x l : tn_unacked x <= n -> no_growth (tn_unacked x) l -> no_growth n (x :: l).
(** The receiver answered: a byte was read while the data drained, or by the last
    read, once nothing was unacknowledged. *)
Definition answered (u : Z) (l : list turn) (final : Z) : Prop :=
  exists pre x post, l = pre ++ x :: post /\ draining u pre /\
    (tn_read x = 1 \/ (timed_out x 0 /\ final = 1 /\ 0 <= match rev pre with [] => u | y :: _ => tn_unacked y end)).

(** ** Connecting *)

(** An attempt after which there is another one. *)
Definition goes_on (x : Z * Z) : Prop := fst x <> OK /\ fst x <> CONN_ERROR /\ snd x = OK.
(** What the last of at most [m] attempts, number [n], makes of the connection. *)
Definition verdict (m n : Z) (x : Z * Z) (code : Z) : Prop :=
  (fst x = OK /\ code = OK) \/
  (fst x = CONN_ERROR /\ code = CONN_ERROR) \/
  (fst x <> OK /\ fst x <> CONN_ERROR /\ snd x <> OK /\ code = ABORT) \/
  (goes_on x /\ n = m /\ code = CONN_ERROR).
