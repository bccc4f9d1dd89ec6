(** PerfStatReport: how long system calls took (Reporting.h:544-602,
    Reporting.cpp:384-510). Every method runs under the lock of the report. Counters are
    mathematical integers (int64_t in the code); the divisions by 1000 are of doubles in
    the code, exact after rounding towards zero for times below 2^53 microseconds. *)
From Verif Require Export Model.QueueMonitor.
Open Scope Z_scope.

Definition INT64_MAX : Z := 2 ^ 63 - 1.
(** enum StatType, Reporting.h:550-569: positions in the list. *)
Definition kNumTypes : nat := 15.
Definition SOCKET_READ : nat := 0.
Definition FILE_WRITE : nat := 5.

(** The members for one type: perfStats_ (an unordered_map), maxValueMicros_,
    minValueMicros_, count_, sumMicros_, Reporting.h:587-596. *)
Record perf := { pf_map : list (Z * Z); pf_max : Z; pf_min : Z; pf_count : Z; pf_sum : Z }.
(** A new report. The initialiser of the array of minima has one element, so the other
    elements are 0, Reporting.h:592. *)
Definition perf_new (ty : nat) : perf :=
  {| pf_map := []; pf_max := 0; pf_min := match ty with O => INT64_MAX | _ => 0 end; pf_count := 0; pf_sum := 0 |}.
Definition preport := list perf.
Definition preport_new : preport := map perf_new (seq 0 kNumTypes).

(** perfStats_[..][key] += n: an element that is not there is made with 0. *)
Fixpoint bump (m : list (Z * Z)) (k n : Z) : list (Z * Z) :=
  match m with
  | [] => [(k, n)]
  | (k', v) :: r => if k' =? k then (k', v + n) :: r else (k', v) :: bump r k n
  end.

(** addPerfStat, Reporting.cpp:398-413; [net]: networkTimeoutMillis_. The product is of
    ints. *)
Definition perf_add (p : perf) (t : Z) : perf :=
  {| pf_map := bump (pf_map p) (Z.quot t 1000) 1; pf_max := Z.max (pf_max p) t; pf_min := Z.min (pf_min p) t;
     pf_count := pf_count p + 1; pf_sum := pf_sum p + t |}.
Definition addPerfStat (net : Z) (r : preport) (ty : nat) (t : Z) : outcome preport :=
  if (net * 750 <? - 2 ^ 31) || (2 ^ 31 <=? net * 750) then Undef
  else match nth_error r ty with
       | Some p => Ret (set_nth r ty (perf_add p t))
       | None => Undef
       end.

(** operator+=, Reporting.cpp:415-433. *)
Definition perf_merge (p q : perf) : perf :=
  {| pf_map := fold_left (fun m e => bump m (fst e) (snd e)) (pf_map q) (pf_map p);
     pf_max := Z.max (pf_max p) (pf_max q); pf_min := Z.min (pf_min p) (pf_min q);
     pf_count := pf_count p + pf_count q; pf_sum := pf_sum p + pf_sum q |}.
Fixpoint preport_merge (a b : preport) : preport :=
  match a, b with p :: a', q :: b' => perf_merge p q :: preport_merge a' b' | _, _ => a end.

(** kHistogramBuckets, Reporting.cpp:386-396. *)
Definition kHistogramBuckets : list Z :=
  [1; 2; 3; 4; 5; 6; 7; 8; 9; 10; 11; 12; 14; 16; 18; 20; 25; 30; 35; 40; 45; 50; 60; 70; 80; 90; 100;
   120; 140; 160; 180; 200; 250; 300; 350; 400; 450; 500; 600; 700; 800; 900; 1000;
   2000; 3000; 4000; 5000; 7500; 10000; 20000; 30000; 40000; 50000; 75000; 100000].

(** std::sort of the keys, Reporting.cpp:464; they are different. *)
Fixpoint insert_key (k : Z) (l : list Z) : list Z :=
  match l with [] => [k] | x :: r => if k <=? x then k :: l else x :: insert_key k r end.
Definition sort_keys (l : list Z) : list Z := fold_right insert_key [] l.
Definition find_key (m : list (Z * Z)) (k : Z) : Z :=
  match find (fun e => fst e =? k) m with Some e => snd e | None => 0 end.

(** buckets[i] += n, Reporting.cpp:491. *)
Fixpoint add_nth (l : list Z) (i : nat) (n : Z) : list Z :=
  match l, i with
  | [], _ => []
  | x :: r, O => x + n :: r
  | x :: r, S j => x :: add_nth r j n
  end.
(** The inner loop, Reporting.cpp:487-490: the buckets' ends from the current one on. *)
Fixpoint advance (ends : list Z) (i : nat) (time : Z) : list Z * nat :=
  match ends with
  | e :: r => if e <=? time then advance r (S i) time else (ends, i)
  | [] => ([], i)
  end.
(** What the loop over the times prints and counts, Reporting.cpp:472-492: the times
    printed for p50, p95 and p99 and the buckets. *)
Record pout := { po_p50 : list Z; po_p95 : list Z; po_p99 : list Z; po_buckets : list Z }.
Fixpoint scan_times (m : list (Z * Z)) (r50 r95 r99 : Z) (times : list Z) (running : Z) (ends : list Z) (i : nat)
    (o : pout) : outcome pout :=
  match times with
  | [] => Ret o
  | time :: r =>
      if time <? 0 then Crash
      else
        let count := find_key m time in
        let pr rank l := if (running <? rank) && (rank <=? running + count) then l ++ [time] else l in
        let '(ends', i') := advance ends i time in
        scan_times m r50 r95 r99 r (running + count) ends' i'
          {| po_p50 := pr r50 (po_p50 o); po_p95 := pr r95 (po_p95 o); po_p99 := pr r99 (po_p99 o);
             po_buckets := add_nth (po_buckets o) i' count |}
  end.
(** count_ * 0.50 and so on, Reporting.cpp:468-470: doubles cut off, exact below 2^48. *)
Definition rank (count percent : Z) : Z := Z.quot (count * percent) 100.
(** What operator<< prints for one type, Reporting.cpp:438-507: [None] if nothing. Times
    are in microseconds here. *)
Record pline := { pl_count : Z; pl_sum : Z; pl_min : Z; pl_max : Z; pl_out : pout }.
Definition perf_print (p : perf) : outcome (option pline) :=
  if pf_count p =? 0 then Ret None
  else
    let r := rank (pf_count p) in
    obind (scan_times (pf_map p) (r 50) (r 95) (r 99) (sort_keys (map fst (pf_map p))) 0 kHistogramBuckets 0
             {| po_p50 := []; po_p95 := []; po_p99 := []; po_buckets := repeat 0 (S (length kHistogramBuckets)) |})
    (fun o => Ret (Some {| pl_count := pf_count p; pl_sum := pf_sum p; pl_min := pf_min p; pl_max := pf_max p;
                           pl_out := o |})).

(** A number of reports: the threads add to theirs, reports are added to others
    (Sender.cpp:460-471, Receiver.cpp:435-445). A report added to itself waits for its own
    lock for ever, Reporting.cpp:416-417: [Undef]; the code never does it. *)
Inductive pop := PAdd (i ty : nat) (t : Z) | PMerge (i j : nat).
Definition pop_step (net : Z) (s : list preport) (o : pop) : outcome (list preport) :=
  match o with
  | PAdd i ty t =>
      match nth_error s i with
      | Some r => obind (addPerfStat net r ty t) (fun r' => Ret (set_nth s i r'))
      | None => Undef
      end
  | PMerge i j =>
      if Nat.eqb i j then Undef
      else match nth_error s i, nth_error s j with
      | Some a, Some b => Ret (set_nth s i (preport_merge a b))
      | _, _ => Undef
      end
  end.
Fixpoint pop_run (net : Z) (s : list preport) (l : list pop) : outcome (list preport) :=
  match l with
  | [] => Ret s
  | o :: r => obind (pop_step net s o) (fun s' => pop_run net s' r)
  end.
