(** What a counter or a histogram should say, in terms of the values recorded. *)
From Verif Require Export Model.Hist Spec.PerfSpec.
Open Scope Z_scope.

(** The values that went into histogram [i]; the newest operation comes first. *)
Fixpoint went_in (l : list hop) (i : nat) : list Z :=
  match l with
  | [] => []
  | HRecord j v :: r => if Nat.eqb i j then went_in r i ++ [v] else went_in r i
  | HMerge j k :: r => if Nat.eqb i j then went_in r i ++ went_in r k else went_in r i
  | HReset j :: r => if Nat.eqb i j then [] else went_in r i
  end.

Definition nonzero (l : list Z) : list Z := filter (fun v => negb (v =? 0)) l.
(** The sum of the squares of the values that are ints. *)
Definition squares (l : list Z) : Z :=
  total (map (fun v => v * v) (filter (fun v => (- 2 ^ 31 <=? v) && (v <=? 2 ^ 31 - 1)) l)).
(** Slot [j]: from the end before it to its own, both scaled; the first has no lower end,
    the last no upper. *)
Definition in_range (div off : Z) (j : nat) (v : Z) : bool :=
  match j with O => true | S k => nth k kHistogramBuckets 0 * div + off <=? v end &&
  match nth_error kHistogramBuckets j with Some e => v <? e * div + off | None => true end.

(** Number, sum, squares and slots are those of [l]. *)
Record counted (l : list Z) (h : hist) : Prop := {
  cd_count : ct_count (h_ctr h) = zlen l;
  cd_sum : ct_sum (h_ctr h) = total l;
  cd_sq : ct_sq (h_ctr h) = squares l;
  cd_len : length (h_data h) = 56%nat;
  cd_slots : forall j, (j <= 55)%nat -> nth j (h_data h) 0 = count_if (in_range (h_div h) (h_off h) j) l
}.
(** The smallest, the smallest that is not 0 and the greatest. *)
Definition extremes (l : list Z) (h : hist) : Prop :=
  least l (ct_realMin (h_ctr h)) /\ greatest l (ct_max (h_ctr h)) /\
  ((nonzero l = [] /\ ct_min (h_ctr h) = 0) \/ least (nonzero l) (ct_min (h_ctr h))).
(** No value lies outside what is taken for minimum and maximum, which are not negative. *)
Definition bounded (l : list Z) (h : hist) : Prop :=
  0 <= ct_realMin (h_ctr h) /\ Forall (fun v => ct_realMin (h_ctr h) <= v <= ct_max (h_ctr h)) l.

Definition below_of (l : list Z) (x : Z) : Z := count_if (fun v => v <? x) l.
(** [r] is right for [p] percent as far as the slots can tell: it lies between two bounds
    within one slot and within minimum and maximum; fewer than [p] percent of the values are
    below the lower one and at least so many are below the upper one, or the upper one is
    the maximum; and it divides the interval as [p] divides the shares at its ends. *)
Definition near_percentile (l : list Z) (min max div off : Z) (p r : Q) : Prop :=
  exists j lo hi a b, (j <= 55)%nat /\
    match j with O => True | S k => nth k kHistogramBuckets 0 * div + off <= lo end /\
    match nth_error kHistogramBuckets j with Some e => hi <= e * div + off | None => True end /\
    min <= lo <= hi /\ hi <= max /\ (inject_Z lo <= r <= inject_Z hi)%Q /\
    a = below_of l lo /\ (b = below_of l hi \/ (b = zlen l /\ hi = max)) /\
    (inject_Z (100 * a) < p * inject_Z (zlen l))%Q /\ (p * inject_Z (zlen l) <= inject_Z (100 * b))%Q /\
    ((r - inject_Z lo) * inject_Z (100 * (b - a)) == inject_Z (hi - lo) * (p * inject_Z (zlen l) - inject_Z (100 * a)))%Q.

(** The sum of the squares of the distances from the mean, times the number of values. *)
Definition spread (l : list Z) : Z := zlen l * total (map (fun v => v * v) l) - total l * total l.

(** The row printed for slot [i]: its ends and how many values lie in it. *)
Definition row_of (div off : Z) (l : list Z) (i : nat) : option Z * option Z * Z :=
  (match i with O => None | S k => Some (nth k kHistogramBuckets 0 * div + off) end,
   option_map (fun e => e * div + off) (nth_error kHistogramBuckets i), count_if (in_range div off i) l).
