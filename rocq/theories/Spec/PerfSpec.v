(** What the performance figures should say, in terms of the calls that were recorded. *)
From Verif Require Export Model.Perf.
Open Scope Z_scope.

(** The calls of type [ty] that went into report [i], after a number of operations:
    adding a report adds what went into it until then. *)
Fixpoint recorded (l : list pop) (i ty : nat) : list Z :=
  match l with
  | [] => []
  | PAdd j ty' t :: r => if Nat.eqb i j && Nat.eqb ty ty' then recorded r i ty ++ [t] else recorded r i ty
  | PMerge j k :: r => if Nat.eqb i j then recorded r i ty ++ recorded r k ty else recorded r i ty
  end.

Definition total (l : list Z) : Z := fold_right Z.add 0 l.
Definition count_if (P : Z -> bool) (l : list Z) : Z := zlen (filter P l).
(** A time in milliseconds, cut off. *)
Definition millis (l : list Z) : list Z := map (fun t => Z.quot t 1000) l.
(** [v] is the [r]th smallest element of [l]. *)
Definition ranked (l : list Z) (r v : Z) : Prop :=
  count_if (fun x => x <? v) l < r <= count_if (fun x => x <=? v) l.
(** The position that stands for a percentage, and what is printed for it: nothing if
    there are too few for position 1. *)
Definition position (percent : Z) (l : list Z) : Z := zlen l * percent / 100.
Definition percentile (percent : Z) (l out : list Z) : Prop :=
  (position percent l = 0 /\ out = []) \/ (exists v, out = [v] /\ ranked l (position percent l) v).
Definition greatest (l : list Z) (v : Z) : Prop := In v l /\ Forall (fun x => x <= v) l.
Definition least (l : list Z) (v : Z) : Prop := In v l /\ Forall (fun x => v <= x) l.

(** Slot [j] of a histogram with these ends: from the end before it (or 0) to its own (or
    without end). *)
Definition in_slot (ends : list Z) (j : nat) (v : Z) : bool :=
  (match j with O => 0 | S k => nth k ends 0 end <=? v) &&
  match nth_error ends j with Some e => v <? e | None => true end.

(** An operation on [n] reports that exist. *)
Definition good_op (n : nat) (o : pop) : Prop :=
  match o with PAdd i ty _ => (i < n)%nat /\ (ty < kNumTypes)%nat | PMerge i j => (i < n)%nat /\ (j < n)%nat /\ i <> j end.
