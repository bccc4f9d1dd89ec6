(** C67: the reports on the progress of a transfer. *)
From Coq Require Import ZArith List.
Import ListNotations.
From Verif Require Import Model.Progress Spec.ProgressSpec Proofs.ProgressFacts.
Open Scope Z_scope.

(** ---- C67 ---- *)
(** The line on a terminal: the percentage is right, is 100 exactly at the end, and the
    line always has the same length, so each covers the one before. *)
Theorem C67_line eff tot files (fin : bool) : 0 <= eff <= tot -> eff * 100 < 2 ^ 63 -> 0 <= files < 2 ^ 63 ->
  exists p inside, let line := (if fin then [] else print_nat files ++ [46; 46; 46]) ++ [91] ++ inside ++ [93] in
  show_progress eff tot files fin = Ret (p, line) /\ 0 <= p <= 100 /\
  (0 < tot -> p * tot <= 100 * eff < (p + 1) * tot) /\ (p = 100 <-> 0 < tot /\ eff = tot) /\
  bar_shows p (if fin then 50 else 47 - zlen (print_nat files)) inside /\ zlen line = 51.
Proof. exact (progress_shown eff tot files fin). Qed.
Print Assumptions C67_line.

(** While no more files are found the percentage does not fall. *)
Theorem C67_grows a b tot p q : 0 <= a <= b -> b <= tot -> b * 100 < 2 ^ 63 ->
  percent a tot = Ret p -> percent b tot = Ret q -> p <= q.
Proof. exact (progress_grows a b tot p q). Qed.
Print Assumptions C67_grows.

(** While files are still found it does. *)
Theorem C67_falls_refuted : exists a b ta tb p q, a <= b /\ a <= ta /\ b <= tb /\
  percent a ta = Ret p /\ percent b tb = Ret q /\ q < p.
Proof. exact falls. Qed.
Print Assumptions C67_falls_refuted.

Theorem C67_overflow_refuted : show_progress 92233720368547759 92233720368547759 1 true = Undef.
Proof. exact too_much. Qed.
Print Assumptions C67_overflow_refuted.

(** A receiver takes the total from the sender: a sender that sends more than it said
    makes the bar as long as it likes, and undefined. *)
Theorem C67_claim_refuted : (exists p b, show_progress 3 1 0 true = Ret (p, b) /\ p = 300 /\ zlen b = 152) /\
  show_progress 500000 1 0 true = Undef.
Proof. exact claimed. Qed.
Print Assumptions C67_claim_refuted.

(** The recent throughput reported is that of the last complete interval, and the
    intervals follow each other without gaps. *)
Theorem C67_throughput every start l k : (k < length l)%nat ->
  nth_error (tput_run every (tput_new start) l) k =
  Some (last_interval (Nat.max 1 (Z.to_nat every)) start l (S k)).
Proof. exact (throughput_is every start l k). Qed.
Print Assumptions C67_throughput.

(** Such an interval is of as many reports as fit into the time asked for. *)
Theorem C67_interval t r : 0 <= t -> 0 < r -> update_every t r * r <= t < (update_every t r + 1) * r.
Proof. exact (interval_is t r). Qed.
Print Assumptions C67_interval.

(** 30 percent of a bar, while 12 files were found. *)
Example C67_line_example : exists b, show_progress 310 1000 12 false = Ret (31, b) /\ zlen b = 51 /\
  b = [49; 50; 46; 46; 46; 91] ++ repeat 61 12 ++ [62] ++ repeat 32 31 ++ [93] /\ bar_shows 31 45 (repeat 61 12 ++ [62] ++ repeat 32 31).
Proof.
  eexists. split; [vm_compute; reflexivity|]. split; [vm_compute; reflexivity|]. split; [vm_compute; reflexivity|].
  exists 12%nat, [62], 31%nat. repeat split; vm_compute; reflexivity.
Qed.
Example C67_full_example : exists b, show_progress 1000 1000 12 true = Ret (100, b) /\ b = [91] ++ repeat 61 49 ++ [93].
Proof. eexists. split; vm_compute; reflexivity. Qed.
Example C67_grows_example : percent 310 1000 = Ret 31 /\ percent 999 1000 = Ret 99.
Proof. split; vm_compute; reflexivity. Qed.
(** A throughput every 500 ms, a report every 200. *)
Example C67_throughput_example : tput_run (update_every 500 200) (tput_new 7) [(10, 207); (30, 407); (35, 607); (60, 810); (61, 1007)] =
  [None; Some (30, 400); Some (30, 400); Some (30, 403); Some (30, 403)].
Proof. vm_compute. reflexivity. Qed.
