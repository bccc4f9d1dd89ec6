(** What a report on progress should show. *)
From Verif Require Export Model.Progress.
Open Scope Z_scope.

(** [inside] is a bar of [w] - 1 characters of which [p] percent of [w] (rounded down) are
    filled, with an arrow head unless it is empty or full. *)
Definition bar_shows (p w : Z) (inside : list Z) : Prop :=
  exists k arrow m, inside = repeat 61 k ++ arrow ++ repeat 32 m /\ zlen inside = w - 1 /\
    zlen (repeat 61 k ++ arrow) = Z.min (p * w / 100) (w - 1) /\
    arrow = (if (0 <? p * w / 100) && (p * w / 100 <? w) then [62] else []).

(** The [n]-th sample; number 0 is the start. *)
Definition sample (start : Z) (l : list (Z * Z)) (n : nat) : Z * Z :=
  match n with O => (0, start) | S m => nth m l (0, 0) end.
(** The throughput reported after [k] samples: that of the last complete interval of
    [e] samples. *)
Definition last_interval (e : nat) (start : Z) (l : list (Z * Z)) (k : nat) : option (Z * Z) :=
  match (k / e)%nat with
  | O => None
  | S q => let a := sample start l (q * e) in let b := sample start l (S q * e) in
           Some (fst b - fst a, snd b - snd a)
  end.
