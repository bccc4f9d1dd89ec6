(** C64: the figures on how long system calls took. *)
From Coq Require Import ZArith Lia List.
Import ListNotations.
From Verif Require Import Model.Perf Spec.PerfSpec Proofs.PerfFacts.
Open Scope Z_scope.

(** ---- C64 ---- *)
Theorem C64_figures net n l s i r ty p : pop_run net (repeat preport_new n) l = Ret s ->
  nth_error s i = Some r -> nth_error r ty = Some p -> let L := recorded (rev l) i ty in
  pf_count p = zlen L /\ pf_sum p = total L /\
  (Forall (fun t => 0 <= t) L -> L <> [] -> greatest L (pf_max p)) /\
  (ty = SOCKET_READ -> Forall (fun t => t <= INT64_MAX) L -> L <> [] -> least L (pf_min p)).
Proof. exact (figures net n l s i r ty p). Qed.
Print Assumptions C64_figures.

(** The smallest time of every type but the first is given as 0 whatever was measured. *)
Theorem C64_min net n l s i r ty p : pop_run net (repeat preport_new n) l = Ret s ->
  nth_error s i = Some r -> nth_error r ty = Some p -> ty <> SOCKET_READ ->
  Forall (fun t => 0 <= t) (recorded (rev l) i ty) -> pf_min p = 0.
Proof. exact (min_wrong net n l s i r ty p). Qed.
Print Assumptions C64_min.

Theorem C64_min_refuted : exists l s r p, pop_run 5000 (repeat preport_new 1) l = Ret s /\
  nth_error s 0 = Some r /\ nth_error r FILE_WRITE = Some p /\
  recorded (rev l) 0 FILE_WRITE = [5000; 7000] /\ ~ least [5000; 7000] (pf_min p).
Proof. exact min_refuted. Qed.
Print Assumptions C64_min_refuted.

Theorem C64_printed net n l s i r ty p : pop_run net (repeat preport_new n) l = Ret s ->
  nth_error s i = Some r -> nth_error r ty = Some p -> let L := recorded (rev l) i ty in
  (perf_print p = Ret None <-> L = []) /\
  (perf_print p = Crash <-> Exists (fun t => t <= -1000) L) /\
  (Forall (fun t => -1000 < t) L -> L <> [] ->
   exists o, perf_print p = Ret (Some {| pl_count := zlen L; pl_sum := total L; pl_min := pf_min p; pl_max := pf_max p; pl_out := o |}) /\
   percentile 50 (millis L) (po_p50 o) /\ percentile 95 (millis L) (po_p95 o) /\
   percentile 99 (millis L) (po_p99 o) /\
   length (po_buckets o) = S (length kHistogramBuckets) /\
   forall j, (j <= length kHistogramBuckets)%nat ->
     nth j (po_buckets o) 0 = count_if (in_slot kHistogramBuckets j) (millis L)).
Proof. exact (report_printed net n l s i r ty p). Qed.
Print Assumptions C64_printed.

(** Every time that is not negative falls into exactly one slot. *)
Theorem C64_slots v : 0 <= v ->
  exists j, (j <= length kHistogramBuckets)%nat /\ in_slot kHistogramBuckets j v = true /\
  forall k, (k <= length kHistogramBuckets)%nat -> in_slot kHistogramBuckets k v = true -> k = j.
Proof. exact (slots_partition v). Qed.
Print Assumptions C64_slots.

(** What a list of percentiles says is determined by what was recorded. *)
Theorem C64_percentile_unique pc l a b : percentile pc l a -> percentile pc l b -> a = b.
Proof. exact (percentile_unique pc l a b). Qed.
Print Assumptions C64_percentile_unique.

Theorem C64_defined net n l : -2863311 <= net <= 2863311 -> Forall (good_op n) l ->
  exists s, pop_run net (repeat preport_new n) l = Ret s.
Proof. exact (recording_defined net n l). Qed.
Print Assumptions C64_defined.

Theorem C64_overflow_refuted net ty t : 2863311 < net < 2 ^ 31 ->
  pop_run net [preport_new] [PAdd 0 ty t] = Undef.
Proof. exact (recording_undefined net ty t). Qed.
Print Assumptions C64_overflow_refuted.

(** Two threads read from sockets, a third report adds up theirs. *)
Example C64_run : line_after 5000 3 [PAdd 0 SOCKET_READ 1500; PAdd 1 SOCKET_READ 2700; PAdd 0 FILE_WRITE 9000;
    PMerge 2 0; PAdd 0 SOCKET_READ 70000; PMerge 2 1] 2 SOCKET_READ = Ret (Some (2, 4200, 1500, 2700, [1], [1], [1])).
Proof. vm_compute. reflexivity. Qed.
(** With one call there are no percentiles. *)
Example C64_single : line_after 5000 1 [PAdd 0 SOCKET_READ 1500] 0 SOCKET_READ =
  Ret (Some (1, 1500, 1500, 1500, [], [], [])).
Proof. vm_compute. reflexivity. Qed.
(** The clock was set back by two seconds during a read. *)
Example C64_backwards : line_after 5000 1 [PAdd 0 SOCKET_READ 1500; PAdd 0 SOCKET_READ (-2000000)] 0 SOCKET_READ = Crash.
Proof. vm_compute. reflexivity. Qed.
(** A time-out of 48 minutes. *)
Example C64_timeout : line_after 2880000 1 [PAdd 0 SOCKET_READ 1500] 0 SOCKET_READ = Undef.
Proof. vm_compute. reflexivity. Qed.
Example C64_slot_13 : in_slot kHistogramBuckets 12 13 = true /\ in_slot kHistogramBuckets 55 1000000 = true.
Proof. vm_compute. split; reflexivity. Qed.
Example C64_median : percentile 50 [7; 1; 9; 4] [4].
Proof. right. exists 4. vm_compute. repeat split; discriminate || reflexivity. Qed.
