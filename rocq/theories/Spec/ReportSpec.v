(** What a final report that says OK must mean. *)
From Verif Require Export Model.Report Spec.Sums.

(** The most serious error of any thread. *)
Definition worst (l : list Z) (e : Z) : Prop :=
  (In e l \/ (e = OK /\ l = [])) /\ forall x, In x l -> x <= e.

(** Error codes are positions in the enumeration. *)
Definition codes_ok (l : list stats) : Prop :=
  forall t, In t l -> OK <= st_local t /\ OK <= st_remote t.

(** The threads agree on what the sender announced. *)
Definition agree (l : list stats) : Prop :=
  forall a b, In a l -> In b l ->
    (st_blocksSend a = -1 \/ st_blocksSend b = -1 \/ st_blocksSend a = st_blocksSend b) /\
    (st_senderBytes a = -1 \/ st_senderBytes b = -1 \/ st_senderBytes a = st_senderBytes b).

(** What the sender announced to the threads: the first announcement seen. *)
Fixpoint announced (f : stats -> Z) (l : list stats) : Z :=
  match l with [] => -1 | t :: r => if f t =? -1 then announced f r else f t end.

(** [l] names each element of [ids] once. *)
Definition each_once (ids l : list (list Z)) : Prop := NoDup l /\ forall x, In x l <-> In x ids.

(** A thread without an error. *)
Definition ended_well (t : stats) : Prop := st_local t = OK /\ st_remote t = OK.
