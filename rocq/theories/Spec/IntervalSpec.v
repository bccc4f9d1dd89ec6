(** Sets of byte positions described by lists of intervals. *)
From Verif Require Export Model.Bytes Model.ProtocolCodec.

(** Byte [x] belongs to some interval of [l]. *)
Definition covered (l : list interval) (x : Z) : Prop :=
  exists c, In c l /\ iv_start c <= x < iv_end c.

Definition wf_interval (c : interval) : Prop := 0 <= iv_start c <= iv_end c.
Definition nonempty_interval (c : interval) : Prop := 0 <= iv_start c < iv_end c.

(** Sorted, disjoint and with a gap between neighbours. *)
Inductive separated : list interval -> Prop :=
| sep_nil : separated []
| sep_one c : separated [c]
| sep_cons c d l : iv_end c < iv_start d -> separated (d :: l) -> separated (c :: d :: l).

(** Sorted by start, ties in any order. *)
Inductive sorted_by_start : list interval -> Prop :=
| sbs_nil : sorted_by_start []
| sbs_one c : sorted_by_start [c]
| sbs_cons c d l : iv_start c <= iv_start d -> sorted_by_start (d :: l) ->
                   sorted_by_start (c :: d :: l).

(** Sorted and disjoint. *)
Inductive ascending : list interval -> Prop :=
| asc_nil : ascending []
| asc_one c : ascending [c]
| asc_cons c d l : iv_end c <= iv_start d -> ascending (d :: l) -> ascending (c :: d :: l).
