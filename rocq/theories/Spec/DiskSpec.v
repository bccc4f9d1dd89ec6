(** Contents of files. *)
From Verif Require Export Model.Bytes.

(** [f] holds [data] at [pos]. *)
Definition holds_at (f : list Z) (pos : Z) (data : list Z) : Prop :=
  forall i, 0 <= i < zlen data -> rd f (pos + i) = rd data i.
(** Nothing that existed outside [a, b) changed. *)
Definition unchanged_outside (f f' : list Z) (a b : Z) : Prop :=
  forall j, 0 <= j < zlen f -> j < a \/ b <= j -> rd f' j = rd f j.
(** Nothing appeared outside [a, b) but zeros before [a]. *)
Definition grown_only (f f' : list Z) (a b : Z) : Prop :=
  zlen f <= zlen f' <= Z.max (zlen f) b /\
  forall j, zlen f <= j < a -> j < zlen f' -> rd f' j = Some 0.
