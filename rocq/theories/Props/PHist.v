(** C66: what counters and histograms say about the values recorded. *)
From Coq Require Import ZArith QArith Lia List.
Import ListNotations.
From Verif Require Import Model.Hist Spec.HistSpec Proofs.HistFacts.
Open Scope Z_scope.

(** ---- C66 ---- *)
(** Whatever is recorded, merged and reset: number, sum, squares and slots are right. *)
Theorem C66_counts div off n l s i h : 0 < div -> hop_run (repeat (hist_new div off) n) l = Ret s ->
  nth_error s i = Some h -> counted (went_in (rev l) i) h /\ h_div h = div /\ h_off h = off.
Proof. exact (all_counted div off n l s i h). Qed.
Print Assumptions C66_counts.

(** Every value belongs to exactly one slot. *)
Theorem C66_slots div off v : 0 < div -> exists j, (j <= 55)%nat /\ in_range div off j v = true /\
  forall k, (k <= 55)%nat -> in_range div off k v = true -> k = j.
Proof. exact (one_slot div off v). Qed.
Print Assumptions C66_slots.

(** The table that finds the slot is made without reading outside the list of ends, and
    the check at its end holds. *)
Theorem C66_table : (forall i, Z.of_nat i < kLastValue -> exists k, lookup i = Ret k /\ (k < 55)%nat /\ in_range 1 0 k (Z.of_nat i) = true) /\
  (forall i, Z.of_nat i = kLastValue - 1 -> lookup i = Ret 54%nat).
Proof. exact table. Qed.
Print Assumptions C66_table.

Theorem C66_figures div off l h : 0 < div -> hist_records (hist_new div off) l = Ret h ->
  counted l h /\ (l <> [] -> extremes l h) /\ h_div h = div /\ h_off h = off.
Proof. exact (recorded_figures div off l h). Qed.
Print Assumptions C66_figures.

(** Recording after a reset is as good as recording in a new histogram. *)
Theorem C66_reset h v l : hist_records (hist_reset h) (v :: l) = hist_records (hist_new (h_div h) (h_off h)) (v :: l).
Proof. exact (reset_records h v l). Qed.
Print Assumptions C66_reset.

(** Merging: the greatest value is right, the smallest one that is not 0 is if the target
    has any, the smallest one only if it was in the target. *)
Theorem C66_merge l m a b h : extremes l a -> extremes m b -> hist_merge a b = Ret h ->
  greatest (l ++ m) (ct_max (h_ctr h)) /\ (nonzero l <> [] -> least (nonzero (l ++ m)) (ct_min (h_ctr h))) /\
  ct_realMin (h_ctr h) = ct_realMin (h_ctr a) /\
  (least (l ++ m) (ct_realMin (h_ctr h)) <-> ct_realMin (h_ctr a) <= ct_realMin (h_ctr b)).
Proof. exact (merged_figures l m a b h). Qed.
Print Assumptions C66_merge.

Theorem C66_merge_new l b h div off : extremes l b -> hist_merge (hist_new div off) b = Ret h ->
  ct_max (h_ctr h) = Z.max 0 (ct_max (h_ctr b)) /\ ct_min (h_ctr h) = Z.min 0 (ct_min (h_ctr b)) /\ ct_realMin (h_ctr h) = 0.
Proof. exact (merged_into_new l b h div off). Qed.
Print Assumptions C66_merge_new.

(** "as if data for both has been set on this one" is false. *)
Theorem C66_merge_refuted : exists a b h, hist_records (hist_new 1 0) [10] = Ret a /\ hist_records (hist_new 1 0) [3; 4] = Ret b /\
  hist_merge a b = Ret h /\ ct_realMin (h_ctr h) = 10 /\ calcPercentile h 0 = Ret (inject_Z 10) /\
  exists r, calcPercentile h 10 = Ret r /\ (inject_Z 8 < r)%Q.
Proof. exact merge_unlike. Qed.
Print Assumptions C66_merge_refuted.

Theorem C66_merge_new_refuted : exists a b h g, hist_records (hist_new 1 0) [-7] = Ret a /\ hist_records (hist_new 1 0) [7] = Ret b /\
  hist_merge (hist_new 1 0) a = Ret h /\ hist_merge (hist_new 1 0) b = Ret g /\ ct_max (h_ctr h) = 0 /\ ct_min (h_ctr g) = 0.
Proof. exact merge_new_unlike. Qed.
Print Assumptions C66_merge_new_refuted.

Theorem C66_percentile h l p r : 0 < h_div h -> l <> [] -> counted l h -> bounded l h -> (0 < p)%Q -> (p < 100)%Q ->
  calcPercentile h p = Ret r -> near_percentile l (ct_realMin (h_ctr h)) (ct_max (h_ctr h)) (h_div h) (h_off h) p r.
Proof. exact (percentile_near h l p r). Qed.
Print Assumptions C66_percentile.

(** Recorded values that are not negative meet the condition. *)
Theorem C66_recorded div off l h : 0 < div -> hist_records (hist_new div off) l = Ret h -> Forall (fun v => 0 <= v) l ->
  l <> [] -> bounded l h.
Proof. exact (recorded_bounded div off l h). Qed.
Print Assumptions C66_recorded.

(** So do histograms merged into a new one of the same scale. *)
Theorem C66_merged_percentile div off ls hs h p r : 0 < div -> Forall (Forall (fun v => 0 <= v)) ls ->
  Forall2 (fun l b => hist_records (hist_new div off) l = Ret b) ls hs -> hist_merges (hist_new div off) hs = Ret h ->
  concat ls <> [] -> (0 < p)%Q -> (p < 100)%Q -> calcPercentile h p = Ret r ->
  near_percentile (concat ls) 0 (ct_max (h_ctr h)) div off p r.
Proof. exact (merged_percentile div off ls hs h p r). Qed.
Print Assumptions C66_merged_percentile.

Theorem C66_percentile_bounds h l p r : 0 < h_div h -> l <> [] -> counted l h -> bounded l h -> calcPercentile h p = Ret r ->
  (inject_Z (ct_realMin (h_ctr h)) <= r <= inject_Z (ct_max (h_ctr h)))%Q.
Proof. exact (percentile_bounds h l p r). Qed.
Print Assumptions C66_percentile_bounds.

Theorem C66_percentile_monotone h l p q r s : 0 < h_div h -> l <> [] -> counted l h -> bounded l h -> (p <= q)%Q ->
  calcPercentile h p = Ret r -> calcPercentile h q = Ret s -> (r <= s)%Q.
Proof. exact (percentile_mono h l p q r s). Qed.
Print Assumptions C66_percentile_monotone.

Theorem C66_percentile_defined h l p : l <> [] -> counted l h ->
  (forall e, 1 <= e <= 100000 -> - 2 ^ 63 <= e * h_div h + h_off h < 2 ^ 63) -> exists r, calcPercentile h p = Ret r.
Proof. exact (percentile_defined h l p). Qed.
Print Assumptions C66_percentile_defined.

(** Values below 0, the smallest value of before a reset and another scale give
    percentiles above the greatest value or far below the smallest. *)
Theorem C66_negative_refuted : exists h r, hist_records (hist_new 1 0) [-5] = Ret h /\ calcPercentile h 50 = Ret r /\
  ct_max (h_ctr h) = -5 /\ (inject_Z (-5) < r)%Q.
Proof. exact negative_unlike. Qed.
Print Assumptions C66_negative_refuted.

Theorem C66_stale_min_refuted : exists a b h r, hist_records (hist_new 1 0) [50; 60] = Ret a /\ hist_records (hist_new 1 0) [3; 4] = Ret b /\
  hist_merge (hist_reset a) b = Ret h /\ calcPercentile h 20 = Ret r /\ ct_max (h_ctr h) = 4 /\ (inject_Z 4 < r)%Q.
Proof. exact stale_unlike. Qed.
Print Assumptions C66_stale_min_refuted.

Theorem C66_scale_refuted : exists b h r, hist_records (hist_new 100 0) [5000; 5000] = Ret b /\ hist_merge (hist_new 1 0) b = Ret h /\
  calcPercentile h 50 = Ret r /\ (r <= inject_Z 60)%Q /\ In (Some 50, Some 60, 2) (hist_rows h) /\ hist_rows h <> hist_rows b.
Proof. exact scale_unlike. Qed.
Print Assumptions C66_scale_refuted.

Theorem C66_defined l div off : 0 < div -> Forall (fun v => - 2 ^ 63 <= v - off < 2 ^ 63) l -> zlen l < 2 ^ 31 ->
  absolute l < 2 ^ 63 -> squares l < 2 ^ 63 -> exists h, hist_records (hist_new div off) l = Ret h.
Proof. intros D F. exact (records_defined l [] (hist_new div off) D (counted_new div off) F). Qed.
Print Assumptions C66_defined.

Theorem C66_overflow_refuted : hist_records (hist_new 1 0) [- 2 ^ 31; - 2 ^ 31] = Undef.
Proof. exact overflow_unlike. Qed.
Print Assumptions C66_overflow_refuted.

(** The square of the standard deviation, if values and sum are ints: at least the right
    one and less than 1/n above it. *)
Theorem C66_deviation l h : counted l h -> l <> [] -> Forall (fun v => - 2 ^ 31 <= v < 2 ^ 31) l ->
  - 2 ^ 31 <= total l < 2 ^ 31 ->
  (inject_Z (spread l) <= ctr_variance (h_ctr h) * inject_Z (zlen l * zlen l) < inject_Z (spread l + zlen l))%Q.
Proof. exact (variance_right l h). Qed.
Print Assumptions C66_deviation.

Theorem C66_deviation_refuted : exists h, hist_records (hist_new 1 0) [2000000000; 1000000000] = Ret h /\
  ctr_variance (h_ctr h) = 0%Q /\ spread [2000000000; 1000000000] = 1000000000000000000.
Proof. exact deviation_unlike. Qed.
Print Assumptions C66_deviation_refuted.

(** What is printed: the rows of all slots up to the last that is not empty. *)
Theorem C66_rows l h : 0 < h_div h -> counted l h ->
  (forall i r, nth_error (hist_rows h) i = Some r -> r = row_of (h_div h) (h_off h) l i) /\
  total (map snd (hist_rows h)) = zlen l /\ (length (hist_rows h) <= 56)%nat /\
  (hist_rows h <> [] -> 0 < snd (last (hist_rows h) (None, None, 0))).
Proof. exact (printed_rows l h). Qed.
Print Assumptions C66_rows.

(** Two histograms of scale 10: values 7, 25 and 0 in the first, 131 in the second, which
    is then added to the first. *)
Example C66_counts_example : exists s h, hop_run (repeat (hist_new 10 0) 2)
    [HRecord 0 7; HRecord 0 25; HRecord 0 0; HRecord 1 131; HMerge 0 1; HReset 1] = Ret s /\
  nth_error s 0 = Some h /\ went_in (rev [HRecord 0 7; HRecord 0 25; HRecord 0 0; HRecord 1 131; HMerge 0 1; HReset 1]) 0 = [7; 25; 0; 131] /\
  ct_count (h_ctr h) = 4 /\ ct_sum (h_ctr h) = 163 /\ ct_sq (h_ctr h) = 49 + 625 + 17161 /\ nth 0 (h_data h) 0 = 2 /\
  nth 2 (h_data h) 0 = 1 /\ nth 12 (h_data h) 0 = 1 /\ ct_min (h_ctr h) = 7 /\ ct_realMin (h_ctr h) = 0 /\ ct_max (h_ctr h) = 131.
Proof.
  eexists. eexists. split; [vm_compute; reflexivity|]. split; [vm_compute; reflexivity|]. vm_compute. auto 20.
Qed.
(** Eight values, scale 1: half of them are at most 4 and the answer is 4.33. *)
Example C66_percentile_example : exists h, hist_records (hist_new 1 0) [1; 2; 3; 4; 4; 4; 5; 13] = Ret h /\
  bounded [1; 2; 3; 4; 4; 4; 5; 13] h /\ calcPercentile h 50 = Ret ((4 # 1) + (50 - (300 # 8)) * (1 # 1) / ((600 # 8) - (300 # 8)))%Q /\
  (forall e, 1 <= e <= 100000 -> - 2 ^ 63 <= e * h_div h + h_off h < 2 ^ 63).
Proof.
  eexists. split; [vm_compute; reflexivity|]. split; [|split].
  - split; [vm_compute; discriminate|]. repeat constructor; vm_compute; discriminate.
  - vm_compute. reflexivity.
  - cbn [h_div h_off]. intros e E. lia.
Qed.
(** The deviation of 2, 4 and 9 is the root of 26/3; the code computes 101 - 225 / 3. *)
Example C66_deviation_example : exists h, hist_records (hist_new 1 0) [2; 4; 9] = Ret h /\ ctr_variance (h_ctr h) = (26 # 3)%Q /\
  spread [2; 4; 9] = 78 /\ total [2; 4; 9] = 15.
Proof. eexists. split; [vm_compute; reflexivity|]. vm_compute. auto. Qed.
Example C66_rows_example : exists h, hist_records (hist_new 1 0) [0; 2; 2] = Ret h /\
  hist_rows h = [(None, Some 1, 1); (Some 1, Some 2, 0); (Some 2, Some 3, 2)].
Proof. eexists. split; [vm_compute; reflexivity|]. vm_compute. reflexivity. Qed.
(** Values 10 and 20 in one, 0 and 5 in another. *)
Example C66_merge_example : exists a b h, hist_records (hist_new 1 0) [10; 20] = Ret a /\ hist_records (hist_new 1 0) [0; 5] = Ret b /\
  hist_merge a b = Ret h /\ ct_max (h_ctr h) = 20 /\ ct_min (h_ctr h) = 5 /\ ct_realMin (h_ctr h) = 10.
Proof.
  eexists. eexists. eexists. split; [vm_compute; reflexivity|]. split; [vm_compute; reflexivity|]. split; [vm_compute; reflexivity|].
  vm_compute. auto.
Qed.
Example C66_merged_percentile_example : exists a b h r, hist_records (hist_new 10 0) [10; 20] = Ret a /\
  hist_records (hist_new 10 0) [0; 55] = Ret b /\ hist_merges (hist_new 10 0) [a; b] = Ret h /\
  calcPercentile h (60 # 1) = Ret r /\ (inject_Z 20 < r)%Q /\ (r < inject_Z 30)%Q.
Proof.
  eexists. eexists. eexists. eexists. split; [vm_compute; reflexivity|]. split; [vm_compute; reflexivity|]. split; [vm_compute; reflexivity|].
  split; [vm_compute; reflexivity|]. vm_compute. auto.
Qed.
(** Two values near the greatest int. *)
Example C66_defined_example : let l := repeat 2000000000 2 in
  Forall (fun v => - 2 ^ 63 <= v - 0 < 2 ^ 63) l /\ zlen l < 2 ^ 31 /\ absolute l < 2 ^ 63 /\ squares l < 2 ^ 63.
Proof. cbv zeta. split; [repeat constructor; vm_compute; congruence|]. repeat split; vm_compute; reflexivity. Qed.
