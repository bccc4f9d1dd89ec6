(** When a transfer has delivered what the sender found. *)
From Verif Require Export Model.Transfer Spec.HistorySpec.

(** Byte [x] of file [seq] was written. *)
Definition holds (d : list piece) (seq x : Z) : Prop :=
  exists lo n, In (seq, lo, n) d /\ lo <= x < lo + n.

(** A block (name, sequence id, offset, size): its file was opened for writing
    and all its bytes were written. *)
Definition delivered (d : list piece) (b : list Z * Z * Z * Z) : Prop :=
  let '(_, seq, o, n) := b in
  (exists lo k, In (seq, lo, k) d) /\ forall x, o <= x < o + n -> holds d seq x.

(** The blocks found in a run. *)
Fixpoint found (l : list tevent) : list (list Z * Z * Z * Z) :=
  match l with
  | [] => []
  | TDiscover s :: r => (s_name s, s_seqId s, s_offset s, s_size s) :: found r
  | _ :: r => found r
  end.

(** No receiver thread left without saying so: no socket error after which a
    thread neither accepts again nor publishes its checkpoint. *)
Definition no_silent_exit (l : list tevent) : Prop :=
  forall i e, ~ In (TRecv i (INonRetryable e)) l.

(** Thread [i] of the sender ended without an error. *)
Definition sender_ok (w : world) (i : nat) : Prop := nth_error (w_sph w) i = Some SOk.

(** Block [b] is one the sender could not open and reports as failed. *)
Definition reported (w : world) (b : list Z * Z * Z * Z) : Prop :=
  In b (map ident (sn_failed (w_s w))).

(** Block [h] stands in the history of thread [k], among the blocks that the
    receiver's thread [k] has received: counted or waiting for their tag. *)
Definition received_by (w : world) (k : nat) (h : hsrc) : Prop :=
  exists hi t m, nth_error (sn_hist (w_s w)) k = Some hi /\
    nth_error (rs_threads (w_r w)) k = Some t /\ nth_error (hi_list hi) m = Some h /\
    Z.of_nat m < ck_numBlocks (rt_ck t) + zlen (rt_unver t).

(** The same, among the blocks that its checkpoint counts: their checksum or tag
    was checked, or there is none. *)
Definition counted_by (w : world) (k : nat) (h : hsrc) : Prop :=
  exists hi t m, nth_error (sn_hist (w_s w)) k = Some hi /\
    nth_error (rs_threads (w_r w)) k = Some t /\ nth_error (hi_list hi) m = Some h /\
    Z.of_nat m < ck_numBlocks (rt_ck t).
