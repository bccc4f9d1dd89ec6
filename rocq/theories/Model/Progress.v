(** Reports on the progress of a transfer: ProgressReporter::progress and
    displayProgress, Reporting.cpp:272-336, and the loops that call it,
    Sender::reportProgress, Sender.cpp:414-456, and Receiver::progressTracker,
    Receiver.cpp:375-433. Throughputs are kept as bytes and ticks instead of doubles. *)
From Coq Require Export ZArith List Bool.
From Verif Require Export Model.Bytes Model.Uri.
Import ListNotations.
Open Scope Z_scope.

(** Conversion of int64_t to int. *)
Definition to_int (x : Z) : Z := (x + 2 ^ 31) mod 2 ^ 32 - 2 ^ 31.
Definition int_ok (x : Z) : bool := (- 2 ^ 31 <=? x) && (x <? 2 ^ 31).

(** The percentage, Reporting.cpp:274-278: [eff] effective bytes, [tot] the size of the
    files found. *)
Definition percent (eff tot : Z) : outcome Z :=
  if 0 <? tot then
    if (- 2 ^ 63 <=? eff * 100) && (eff * 100 <? 2 ^ 63) then Ret (to_int (Z.quot (eff * 100) tot)) else Undef
  else Ret 0.

(** (int)log10((double)n) for a positive n, taken as exact: it is below 10^15. *)
Fixpoint ilog10 (fuel : nat) (n : Z) : Z :=
  match fuel with
  | O => 0
  | S f => if n <? 10 then 0 else 1 + ilog10 f (n / 10)
  end.
(** The width of the bar, Reporting.cpp:310-319. *)
Definition bar_width (files : Z) (finished : bool) : Z :=
  if finished then 50
  else 50 - (3 + if 0 <? files then ilog10 64 files + 1 else 1).
(** for (int i = 0; i < n; i++) std::cout << c *)
Definition times_char (n : Z) (c : Z) : list Z := repeat c (Z.to_nat n).
(** The line up to "] ", Reporting.cpp:308-331; [files] is not negative. *)
Definition bar (p files : Z) (finished : bool) : outcome (list Z) :=
  let w := bar_width files finished in
  if int_ok (p * w) then
    let s := Z.quot (p * w) 100 in
    if int_ok (s - 1) && int_ok (w - s - 1) then
      Ret ((if finished then [] else print_nat files ++ [46; 46; 46]) ++ [91] ++ times_char (s - 1) 61 ++
           (if negb (s =? 0) && negb (s =? w) then [62] else []) ++ times_char (w - s - 1) 32 ++ [93])
    else Undef
  else Undef.
(** What progress() shows on a terminal. *)
Definition show_progress (eff tot files : Z) (finished : bool) : outcome (Z * list Z) :=
  obind (percent eff tot) (fun p => obind (bar p files finished) (fun b => Ret (p, b))).

(** The loop: at each turn the bytes and the time; [every] is throughputUpdateInterval.
    What setCurrentThroughput is given: bytes and ticks of an interval, [None] for the 0
    at the start. Sender.cpp:436-449, Receiver.cpp:412-424. *)
Record tput := { tp_bytes : Z; tp_time : Z; tp_turns : Z; tp_cur : option (Z * Z) }.
Definition tput_new (start : Z) : tput := {| tp_bytes := 0; tp_time := start; tp_turns := 0; tp_cur := None |}.
Definition tput_step (every : Z) (s : tput) (sample : Z * Z) : tput :=
  let '(b, t) := sample in
  let n := tp_turns s + 1 in
  if every <=? n then {| tp_bytes := b; tp_time := t; tp_turns := 0; tp_cur := Some (b - tp_bytes s, t - tp_time s) |}
  else {| tp_bytes := tp_bytes s; tp_time := tp_time s; tp_turns := n; tp_cur := tp_cur s |}.
Fixpoint tput_run (every : Z) (s : tput) (l : list (Z * Z)) : list (option (Z * Z)) :=
  match l with
  | [] => []
  | x :: r => let s' := tput_step every s x in tp_cur s' :: tput_run every s' r
  end.
(** throughputUpdateInterval, Sender.cpp:419-420 and Receiver.cpp:385-386; the other
    values of the options fail a check or end the thread. *)
Definition update_every (throughput_ms report_ms : Z) : Z := Z.quot throughput_ms report_ms.
