(** C31, C32: the throttle. *)
From Coq Require Import Lqa.
From Verif Require Import Proofs.ThrottlerWitness.
Import ListNotations.
Open Scope Z_scope.

(** C31. Whatever the threads, their requests and the schedule: the calls of
    limit() that returned by time [t] have at most avg * (t - start) bytes. *)
Theorem C31_average : forall th now n evs s t,
  (0 < th_avg th)%Q -> 0 < th_single th -> (now <= t)%Q ->
  tk_run evs (tk_init th now n) = Some s ->
  (inject_Z (returned t (tk_calls s)) <= th_avg th * (t - now))%Q.
Proof. exact average_rate. Qed.
Print Assumptions C31_average.
Example C31_average_case :
  exists s, tk_run average_run (tk_init avg_only 0 2) = Some s /\
    returned 3 (tk_calls s) = 6 /\ returned 2 (tk_calls s) = 1.
Proof. eexists. split; [vm_compute; reflexivity|]. split; vm_compute; reflexivity. Qed.

(** When the rates are changed while nobody waits in limit(), the new average holds
    from then on, whatever was sent before. *)
Theorem C31_new_average : forall th now evs0 n s0 a p b evs s t,
  0 < th_single th -> tk_run evs0 (tk_init th now n) = Some s0 ->
  (forall x, In x (tk_threads s0) -> x = TkIdle) -> (0 < a)%Q -> (tk_clock s0 <= t)%Q ->
  tk_run evs {| tk_th := setThrottlerRates (tk_clock s0) a p b (tk_th s0); tk_clock := tk_clock s0;
                tk_threads := tk_threads s0; tk_log := []; tk_calls := [] |} = Some s ->
  (inject_Z (returned t (tk_calls s)) <= a * (t - tk_clock s0))%Q.
Proof. exact new_average. Qed.
Print Assumptions C31_new_average.
(** Two bytes per second until 3; then one per second. *)
Example C31_new_average_case :
  exists s0 s, tk_run average_run (tk_init avg_only 0 2) = Some s0 /\
    (forall x, In x (tk_threads s0) -> x = TkIdle) /\ tk_clock s0 == 3 /\
    tk_run (ask 0 ++ EvTick 1 :: done 0)
      {| tk_th := setThrottlerRates (tk_clock s0) 1 (-1) 0 (tk_th s0); tk_clock := tk_clock s0;
         tk_threads := tk_threads s0; tk_log := []; tk_calls := [] |} = Some s /\
    returned 4 (tk_calls s) = 1.
Proof.
  do 2 eexists. split; [vm_compute; reflexivity|]. split; [intros x [<-|[<-|[]]]; reflexivity|].
  split; [vm_compute; reflexivity|]. split; vm_compute; reflexivity.
Qed.

(** C32. What the user asks for is what the throttle has: the average, a peak not
    below it (a lower one is raised, a negative one turns the peak off) and the
    bucket; and with a peak there is a bucket. *)
Theorem C32_options : forall avg peak bucket a p b, configureOptions avg peak bucket = (a, p, b) ->
  a = avg /\ ((avg <= peak)%Q \/ (peak < 0)%Q -> p = peak) /\
  ((0 < bucket)%Q -> b = bucket) /\
  ((0 < avg)%Q -> (0 <= peak)%Q -> (avg <= p)%Q) /\ ((0 < p)%Q -> (0 < b)%Q).
Proof. exact options_kept. Qed.
Print Assumptions C32_options.
Theorem C32_constructed : forall o t, newThrottler o = Some t ->
  th_avg t = to_avg o /\ th_rate t = to_max o /\ ((0 < to_bucket o)%Q -> th_limit t = to_bucket o) /\
  ((0 < to_max o)%Q -> (0 < th_limit t)%Q) /\ th_single t = to_single o /\ 0 < th_single t.
Proof. exact new_kept. Qed.
Print Assumptions C32_constructed.
Example C32_options_case :
  configureOptions 10 20 3 = (10, 20, 3)%Q /\ configureOptions 10 5 3 = (10, (6 # 5) * 10, 3)%Q /\
  exists t, newThrottler {| to_avg := 10; to_max := 20; to_bucket := 3; to_single := 7 |} = Some t /\ th_limit t = 3%Q.
Proof. split; [reflexivity|]. split; [reflexivity|]. eexists. split; reflexivity. Qed.

(** C32, in the order in which the requests took the lock, with nothing assumed of
    the clocks: two requests that returned at [a] and [b] have between them at most
    limit + rate * (b - a), and what the first one overslept, and one byte for each
    truncation. *)
Theorem C32_lock_order : forall th now n evs s i j x y a b,
  (th_avg th <= 0)%Q -> (0 < th_rate th)%Q -> (0 < th_limit th)%Q -> 0 < th_single th ->
  tk_run evs (tk_init th now n) = Some s -> (i <= j)%nat ->
  nth_error (tk_log s) i = Some x -> ch_end x = Some a ->
  nth_error (tk_log s) j = Some y -> ch_end y = Some b ->
  (inject_Z (between i j (tk_log s)) <=
     th_limit th + th_rate th * (b - a) + th_rate th * (a - due (th_rate th) x) + inject_Z (Z.of_nat (j - i)))%Q.
Proof. exact peak_lock. Qed.
Print Assumptions C32_lock_order.
Example C32_lock_order_case :
  exists s x y, tk_run truncation_run (tk_init peak_only 0 4) = Some s /\
    nth_error (tk_log s) 0 = Some x /\ nth_error (tk_log s) 3 = Some y /\
    (exists a, ch_end x = Some a) /\ (exists b, ch_end y = Some b) /\ between 0 3 (tk_log s) = 3.
Proof.
  do 3 eexists. split; [vm_compute; reflexivity|]. split; [reflexivity|]. split; [reflexivity|].
  split; [eexists; reflexivity|]. split; [eexists; reflexivity|]. vm_compute. reflexivity.
Qed.

(** C32 as claimed, when nobody oversleeps, the requests enter in the order of
    their times, and the bucket is filled by whole tokens. *)
Theorem C32_window : forall th now n evs s x a b,
  (th_avg th <= 0)%Q -> (0 < th_rate th)%Q -> (0 < th_limit th)%Q -> 0 < th_single th ->
  tk_run evs (tk_init th now n) = Some s ->
  punctual (th_rate th) (tk_log s) -> in_order (tk_log s) -> whole_tokens now (th_rate th) (tk_log s) ->
  In x (tk_log s) -> ch_end x = Some a -> (a <= b)%Q ->
  (inject_Z (passed a b (tk_log s)) <= th_limit th + th_rate th * (b - a))%Q.
Proof. exact peak_window. Qed.
Print Assumptions C32_window.
Example C32_window_case :
  tk_run punctual_run (tk_init peak_only 0 3) = Some (the_run 3 peak_only punctual_run) /\
  punctual 1 (tk_log (the_run 3 peak_only punctual_run)) /\
  in_order (tk_log (the_run 3 peak_only punctual_run)) /\
  whole_tokens 0 1 (tk_log (the_run 3 peak_only punctual_run)) /\
  passed 5 7 (tk_log (the_run 3 peak_only punctual_run)) = 2 /\
  passed 6 8 (tk_log (the_run 3 peak_only punctual_run)) = 2.
Proof.
  split; [vm_compute; reflexivity|]. split; [exact punctual_ok|]. split; [exact punctual_in_order|].
  split; [exact punctual_whole|]. split; vm_compute; reflexivity.
Qed.

(** Without whole tokens the claim fails, however exact the clocks: the count of
    tokens is truncated towards zero, also when it is negative
    (Throttler.cpp:157-160), so that many small requests get tokens for free. *)
Theorem C32_truncation_refuted : exists th evs s x a b,
  (th_avg th <= 0)%Q /\ (0 < th_rate th)%Q /\ (0 < th_limit th)%Q /\ 0 < th_single th /\
  tk_run evs (tk_init th 0 4) = Some s /\
  punctual (th_rate th) (tk_log s) /\ in_order (tk_log s) /\
  In x (tk_log s) /\ ch_end x = Some a /\ (a <= b)%Q /\
  (th_limit th + th_rate th * (b - a) < inject_Z (passed a b (tk_log s)))%Q.
Proof.
  exists peak_only, truncation_run, (the_run 4 peak_only truncation_run). do 2 eexists. exists (9#4)%Q.
  split; [vm_compute; congruence|]. split; [reflexivity|]. split; [reflexivity|]. split; [reflexivity|].
  split; [vm_compute; reflexivity|]. split; [exact truncation_punctual|]. split; [exact truncation_in_order|].
  split; [vm_compute; left; reflexivity|]. split; [reflexivity|]. split; [vm_compute; congruence|]. vm_compute. reflexivity.
Qed.
Print Assumptions C32_truncation_refuted.

(** And it fails when threads oversleep, which sleep() allows: they return together. *)
Theorem C32_oversleep_refuted : exists th evs s x a b,
  (th_avg th <= 0)%Q /\ (0 < th_rate th)%Q /\ (0 < th_limit th)%Q /\ 0 < th_single th /\
  tk_run evs (tk_init th 0 4) = Some s /\
  in_order (tk_log s) /\ whole_tokens 0 (th_rate th) (tk_log s) /\
  In x (tk_log s) /\ ch_end x = Some a /\ (a <= b)%Q /\
  (th_limit th + th_rate th * (b - a) < inject_Z (passed a b (tk_log s)))%Q.
Proof.
  exists peak_only, oversleep_run, (the_run 4 peak_only oversleep_run). do 2 eexists. exists 4%Q.
  split; [vm_compute; congruence|]. split; [reflexivity|]. split; [reflexivity|]. split; [reflexivity|].
  split; [vm_compute; reflexivity|]. split; [exact oversleep_in_order|]. split; [exact oversleep_whole|].
  split; [vm_compute; left; reflexivity|]. split; [reflexivity|]. split; [vm_compute; congruence|]. vm_compute. reflexivity.
Qed.
Print Assumptions C32_oversleep_refuted.
