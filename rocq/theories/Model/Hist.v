(** Counters and histograms, util/Stats.h:133-346 and util/Stats.cpp, and the pairs of
    them kept by each thread, Stats.h:400-540. Integers are int64_t (slots of a
    histogram int32_t): leaving the range is [Undef]. Doubles are exact rationals. *)
From Coq Require Export QArith.
From Verif Require Export Model.Perf.
Open Scope Z_scope.

(** Signed arithmetic of 64 and 32 bits. *)
Definition ck64 (x : Z) : outcome Z := if (- 2 ^ 63 <=? x) && (x <? 2 ^ 63) then Ret x else Undef.
Definition ck32 (x : Z) : outcome Z := if (- 2 ^ 31 <=? x) && (x <? 2 ^ 31) then Ret x else Undef.

(** The members of Counter, Stats.h:221-222. *)
Record ctr := { ct_count : Z; ct_realMin : Z; ct_min : Z; ct_max : Z; ct_sum : Z; ct_sq : Z }.
Definition ctr_new : ctr := {| ct_count := 0; ct_realMin := 0; ct_min := 0; ct_max := 0; ct_sum := 0; ct_sq := 0 |}.

(** Counter::record, Stats.cpp:45-71. *)
Definition fits32 (v : Z) : bool := (- 2 ^ 31 <=? v) && (v <? 2 ^ 31).
Definition ctr_record (c : ctr) (v : Z) : outcome ctr :=
  obind (ck64 (ct_count c + 1)) (fun n =>
  obind (ck64 (ct_sum c + v)) (fun s =>
  let first := n =? 1 in
  let realMin := if first then v else ct_realMin c in
  let min := if first then v else ct_min c in
  let max := if first then v else ct_max c in
  obind (ck64 (ct_sq c + (if fits32 v then v * v else 0))) (fun q =>
  Ret {| ct_count := n;
         ct_realMin := if v <? realMin then v else realMin;
         ct_min := if negb (v =? 0) && ((min =? 0) || (v <? min)) then v else min;
         ct_max := if max <? v then v else max; ct_sum := s; ct_sq := q |}))).

(** Counter::merge, Stats.cpp:73-84. *)
Definition ctr_merge (a b : ctr) : outcome ctr :=
  obind (ck64 (ct_count a + ct_count b)) (fun n =>
  obind (ck64 (ct_sum a + ct_sum b)) (fun s =>
  obind (ck64 (ct_sq a + ct_sq b)) (fun q =>
  Ret {| ct_count := n; ct_realMin := ct_realMin a;
         ct_min := if negb (ct_min b =? 0) && (ct_min b <? ct_min a) then ct_min b else ct_min a;
         ct_max := if ct_max a <? ct_max b then ct_max b else ct_max a; ct_sum := s; ct_sq := q |}))).

(** Counter::reset, Stats.h:208-210: realMin_ stays. *)
Definition ctr_reset (c : ctr) : ctr :=
  {| ct_count := 0; ct_realMin := ct_realMin c; ct_min := 0; ct_max := 0; ct_sum := 0; ct_sq := 0 |}.

(** Counter::getStdDev, Stats.cpp:86-98: the argument of sqrt. *)
Definition ctr_variance (c : ctr) : Q :=
  if ct_count c <? 1 then 0%Q
  else
    let d := ct_sq c - Z.quot (ct_sum c * ct_sum c) (ct_count c) in
    if negb (fits32 (ct_sum c)) || (d <? 0) then 0%Q else d # Z.to_pos (ct_count c).

(** initHistLookup, Stats.cpp:29-41: what is stored for [i]. kHistogramBuckets has the
    same elements as in Reporting.cpp (Stats.h:317-331). *)
Definition kLastIndex : nat := length kHistogramBuckets.
Definition kFirstValue : Z := 1.
Definition kLastValue : Z := 100000.
Fixpoint lookup (i : nat) : outcome nat :=
  obind (match i with O => Ret O | S j => lookup j end) (fun idx =>
  match nth_error kHistogramBuckets idx with
  | Some e => Ret (if e <=? Z.of_nat i then S idx else idx)
  | None => Undef
  end).

(** The members of Histogram, Stats.h:340-346. *)
Record hist := { h_ctr : ctr; h_data : list Z; h_div : Z; h_off : Z }.
Definition hist_new (div off : Z) : hist :=
  {| h_ctr := ctr_new; h_data := repeat 0 (S kLastIndex); h_div := div; h_off := off |}.

(** Histogram::record, Stats.cpp:119-141. Division by 0, and of the smallest number by
    -1, are undefined. *)
Definition hist_slot (sv : Z) : outcome nat :=
  if kLastValue <=? sv then Ret kLastIndex
  else if kFirstValue <=? sv then lookup (Z.to_nat sv) else Ret O.
Definition hist_record (h : hist) (v : Z) : outcome hist :=
  obind (ctr_record (h_ctr h) v) (fun c =>
  obind (ck64 (v - h_off h)) (fun sv =>
  if h_div h =? 0 then Undef
  else
    obind (ck64 (Z.quot sv (h_div h))) (fun s =>
    obind (hist_slot s) (fun i =>
    obind (ck32 (nth i (h_data h) 0 + 1)) (fun _ =>
    Ret {| h_ctr := c; h_data := add_nth (h_data h) i 1; h_div := h_div h; h_off := h_off h |}))))).

(** Histogram::merge, Stats.cpp:143-148, and reset, Stats.cpp:281-284. *)
Fixpoint add_slots (a b : list Z) : outcome (list Z) :=
  match a, b with
  | x :: a', y :: b' => obind (ck32 (x + y)) (fun z => obind (add_slots a' b') (fun r => Ret (z :: r)))
  | _, _ => Ret []
  end.
Definition hist_merge (a b : hist) : outcome hist :=
  obind (ctr_merge (h_ctr a) (h_ctr b)) (fun c =>
  obind (add_slots (h_data a) (h_data b)) (fun d =>
  Ret {| h_ctr := c; h_data := d; h_div := h_div a; h_off := h_off a |})).
Definition hist_reset (h : hist) : hist :=
  {| h_ctr := ctr_reset (h_ctr h); h_data := repeat 0 (S kLastIndex); h_div := h_div h; h_off := h_off h |}.

(** The loop of Histogram::calcPercentile, Stats.cpp:185-220, with what follows it: the
    interval and the percentages at its ends. *)
Fixpoint pct_loop (p : Q) (count max div off : Z) (ends data : list Z) (prev total : Z) (prevPerc : Q)
  : outcome (Z * Z * Q * Q) :=
  match ends, data with
  | e :: es, d :: ds =>
      obind (ck64 (e * div + off)) (fun cur =>
      let perc := (100 * (total + d)) # Z.to_pos count in
      if max <? cur then Ret (prev, max, prevPerc, 100%Q)
      else if Qle_bool p perc then Ret (prev, cur, prevPerc, perc)
      else pct_loop p count max div off es ds cur (total + d) perc)
  | _, _ => Ret (prev, max, prevPerc, 100%Q)
  end.
(** Histogram::calcPercentile, Stats.cpp:174-230. With nothing recorded the percentages
    are no numbers: not modelled. *)
Definition calcPercentile (h : hist) (p : Q) : outcome Q :=
  let c := h_ctr h in
  if Qle_bool 100 p then Ret (inject_Z (ct_max c))
  else if Qle_bool p 0 then Ret (inject_Z (ct_realMin c))
  else if ct_count c <=? 0 then Undef
  else
    obind (pct_loop p (ct_count c) (ct_max c) (h_div h) (h_off h) kHistogramBuckets (h_data h) 0 0 0%Q)
      (fun r => let '(prev, cur, prevPerc, perc) := r in
       let lo := if prev <? ct_realMin c then ct_realMin c else prev in
       Ret (inject_Z lo + (p - prevPerc) * inject_Z (cur - lo) / (perc - prevPerc))%Q).

(** Histogram::print, Stats.cpp:232-279: the rows, each with its ends and its count, up to
    the last slot that is not empty; nothing if all are. *)
Fixpoint drop_zeros (l : list Z) : list Z :=
  match l with [] => [] | x :: r => if 0 <? x then l else drop_zeros r end.
Definition shown (data : list Z) : list Z := rev (drop_zeros (rev data)).
Fixpoint rows (div off : Z) (ends data : list Z) (prev : option Z) : list (option Z * option Z * Z) :=
  match data with
  | [] => []
  | d :: ds =>
      match ends with
      | e :: es => (prev, Some (div * e + off), d) :: rows div off es ds (Some (div * e + off))
      | [] => [(prev, None, d)]
      end
  end.
Definition hist_rows (h : hist) : list (option Z * option Z * Z) :=
  rows (h_div h) (h_off h) kHistogramBuckets (shown (h_data h)) None.

(** Values recorded one after the other. *)
Fixpoint hist_records (h : hist) (l : list Z) : outcome hist :=
  match l with
  | [] => Ret h
  | v :: r => obind (hist_record h v) (fun h' => hist_records h' r)
  end.
(** Histograms added to one, one after the other, Stats.h:524-528. *)
Fixpoint hist_merges (h : hist) (l : list hist) : outcome hist :=
  match l with
  | [] => Ret h
  | b :: r => obind (hist_merge h b) (fun h' => hist_merges h' r)
  end.
(** A number of histograms, each used by one thread at a time. *)
Inductive hop := HRecord (i : nat) (v : Z) | HMerge (i j : nat) | HReset (i : nat).
Definition hop_step (s : list hist) (o : hop) : outcome (list hist) :=
  match o with
  | HRecord i v =>
      match nth_error s i with
      | Some h => obind (hist_record h v) (fun h' => Ret (set_nth s i h'))
      | None => Undef
      end
  | HMerge i j =>
      match nth_error s i, nth_error s j with
      | Some a, Some b => obind (hist_merge a b) (fun h' => Ret (set_nth s i h'))
      | _, _ => Undef
      end
  | HReset i =>
      match nth_error s i with
      | Some h => Ret (set_nth s i (hist_reset h))
      | None => Undef
      end
  end.
Fixpoint hop_run (s : list hist) (l : list hop) : outcome (list hist) :=
  match l with
  | [] => Ret s
  | o :: r => obind (hop_step s o) (fun s' => hop_run s' r)
  end.
