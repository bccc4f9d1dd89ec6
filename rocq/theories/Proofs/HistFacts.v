(** Proofs about counters and histograms. *)
From Coq Require Import Lia Sorting.Sorted QArith Lqa.
From Verif Require Import Spec.HistSpec Proofs.PerfFacts Proofs.QueueMonitorFacts.
Open Scope Z_scope.

Lemma ck64_ret x y : ck64 x = Ret y -> x = y /\ - 2 ^ 63 <= x < 2 ^ 63.
Proof.
  unfold ck64. destruct ((- 2 ^ 63 <=? x) && (x <? 2 ^ 63))%bool eqn:E; [|discriminate]. intros H. injection H as <-.
  apply andb_prop in E. destruct E as [A B]. apply Z.leb_le in A. apply Z.ltb_lt in B. auto.
Qed.
Lemma ck32_ret x y : ck32 x = Ret y -> x = y.
Proof. unfold ck32. destruct (_ && _)%bool; [|discriminate]. congruence. Qed.
Lemma ck64_in x : - 2 ^ 63 <= x < 2 ^ 63 -> ck64 x = Ret x.
Proof. intros H. unfold ck64. replace (_ && _)%bool with true; [reflexivity|]. symmetry. apply andb_true_intro. split; [apply Z.leb_le|apply Z.ltb_lt]; lia. Qed.
Lemma ck32_in x : - 2 ^ 31 <= x < 2 ^ 31 -> ck32 x = Ret x.
Proof. intros H. unfold ck32. replace (_ && _)%bool with true; [reflexivity|]. symmetry. apply andb_true_intro. split; [apply Z.leb_le|apply Z.ltb_lt]; lia. Qed.
Lemma obind_ret {A B} (m : outcome A) (f : A -> outcome B) b : obind m f = Ret b -> exists a, m = Ret a /\ f a = Ret b.
Proof. destruct m; cbn; try discriminate. eauto. Qed.
Ltac step H := apply obind_ret in H; destruct H as (? & ? & H).

Lemma and_iff (A B C D : Prop) : (A <-> C) -> (B <-> D) -> (A /\ B <-> C /\ D).
Proof. tauto. Qed.

(** ** The table *)
Lemma last_end : last kHistogramBuckets 0 = kLastValue.
Proof. reflexivity. Qed.
Lemma slot_step (i : Z) : exists d, slot i = (slot (i - 1) + d)%nat /\
  match nth_error kHistogramBuckets (slot (i - 1)) with
  | Some e => d = (if (e <=? i)%Z then 1 else 0)%nat
  | None => d = O
  end.
Proof.
  unfold slot. pose proof ends_sorted as S. revert S. generalize kHistogramBuckets.
  induction l as [|x l IH]; intros S; [exists O; cbn; auto|]. inversion S; subst. cbn [filter].
  destruct (x <=? i - 1) eqn:E.
  - destruct (IH H1) as (d & Ed & Hd). exists d. apply Z.leb_le in E. replace (x <=? i) with true by (symmetry; apply Z.leb_le; lia).
    cbn [length nth_error]. split; [rewrite Ed; lia|exact Hd].
  - apply Z.leb_gt in E.
    assert (N : forall k, k <= i -> filter (fun e => e <=? k) l = []).
    { intros k K. apply filter_none. eapply Forall_impl; [|exact H2]. cbn. intros a Ha. apply Z.leb_gt. lia. }
    rewrite !N by lia. cbn [length nth_error]. exists (if (x <=? i)%Z then 1 else 0)%nat. split; [|reflexivity].
    destruct (x <=? i); reflexivity.
Qed.
Lemma slot_low v : v < 1 -> slot v = O.
Proof.
  intros H. unfold slot. rewrite filter_none; [reflexivity|].
  unfold kHistogramBuckets. repeat constructor; apply Z.leb_gt; lia.
Qed.
Lemma slot_high v : kLastValue <= v -> slot v = kLastIndex.
Proof.
  intros H. unfold slot, kLastIndex. rewrite filter_every; [reflexivity|].
  assert (F : Forall (fun e => e <= 100000) kHistogramBuckets) by (unfold kHistogramBuckets; repeat constructor; discriminate).
  eapply Forall_impl; [|exact F]. cbn. intros a Ha. apply Z.leb_le. unfold kLastValue in H. lia.
Qed.
Lemma slot_mid v : v < kLastValue -> (slot v < kLastIndex)%nat.
Proof.
  intros H. unfold slot, kLastIndex.
  replace kHistogramBuckets with (removelast kHistogramBuckets ++ [kLastValue]) by reflexivity.
  rewrite filter_app, !app_length. cbn [filter]. replace (kLastValue <=? v) with false by (symmetry; apply Z.leb_gt; exact H).
  cbn [length]. rewrite Nat.add_0_r.
  assert (forall l : list Z, (length (filter (fun e => (e <=? v)%Z) l) <= length l)%nat).
  { induction l as [|a l IH]; cbn; [lia|]. destruct (a <=? v); cbn; lia. }
  specialize (H0 (removelast kHistogramBuckets)). lia.
Qed.
Lemma lookup_slot i : Z.of_nat i < kLastValue -> lookup i = Ret (slot (Z.of_nat i)).
Proof.
  induction i as [|i IH]; intros H.
  - reflexivity.
  - cbn [lookup]. rewrite IH by lia. cbn [obind].
    destruct (slot_step (Z.of_nat (S i))) as (d & Ed & Hd). replace (Z.of_nat (S i) - 1) with (Z.of_nat i) in * by lia.
    destruct (nth_error kHistogramBuckets (slot (Z.of_nat i))) as [e|] eqn:E.
    + rewrite Ed, Hd. destruct (e <=? Z.of_nat (S i)); f_equal; lia.
    + apply nth_error_None in E. pose proof (slot_mid (Z.of_nat i) ltac:(lia)). unfold kLastIndex in H0. lia.
Qed.
Lemma hist_slot_is s : hist_slot s = Ret (slot s).
Proof.
  unfold hist_slot. destruct (kLastValue <=? s) eqn:A.
  - rewrite slot_high by (apply Z.leb_le; exact A). reflexivity.
  - apply Z.leb_gt in A. destruct (kFirstValue <=? s) eqn:B.
    + apply Z.leb_le in B. rewrite lookup_slot; rewrite Z2Nat.id by (unfold kFirstValue in B; lia); [reflexivity|exact A].
    + apply Z.leb_gt in B. rewrite slot_low by exact B. reflexivity.
Qed.
Lemma quot_ge x d e : 0 < d -> 1 <= e -> (e <= Z.quot x d <-> e * d <= x).
Proof.
  intros D E. destruct (Z_lt_le_dec x 0) as [N|N].
  - assert (Z.quot x d <= 0).
    { replace x with (- (- x)) by lia. rewrite Z.quot_opp_l by lia. pose proof (Z.quot_pos (- x) d ltac:(lia) D). lia. }
    split; intros; nia.
  - rewrite Z.quot_div_nonneg by lia. split; intros H.
    + pose proof (Z.mul_div_le x d D). nia.
    + apply Z.div_le_lower_bound; lia.
Qed.
(** The ends are all at least 1, so division towards zero makes no difference. *)
Lemma slot_range div off v j : 0 < div -> (j <= 55)%nat ->
  Nat.eqb (slot (Z.quot (v - off) div)) j = in_range div off j v.
Proof.
  intros D J. pose proof (slot_in _ (Z.quot (v - off) div) ends_sorted j J) as H.
  assert (F : Forall (fun e => 1 <= e) kHistogramBuckets) by (unfold kHistogramBuckets; repeat constructor; discriminate).
  assert (G : forall e, In e kHistogramBuckets -> (e <= Z.quot (v - off) div <-> e * div + off <= v)).
  { intros e He. rewrite Forall_forall in F. rewrite quot_ge by (auto; apply F, He). lia. }
  assert (X : (match j with O => True | S k => nth k kHistogramBuckets 0 <= Z.quot (v - off) div end /\
               match nth_error kHistogramBuckets j with Some e => Z.quot (v - off) div < e | None => True end)
              <-> in_range div off j v = true).
  { unfold in_range. rewrite andb_true_iff. apply and_iff.
    - destruct j as [|k]; [tauto|]. rewrite Z.leb_le. apply G. apply nth_In. cbn. lia.
    - destruct (nth_error kHistogramBuckets j) as [e|] eqn:E; [|tauto]. apply nth_error_In in E.
      specialize (G e E). rewrite Z.ltb_lt. lia. }
  unfold slot in *. destruct (Nat.eqb _ j) eqn:E; symmetry.
  - apply Nat.eqb_eq in E. apply X, H, E.
  - apply Nat.eqb_neq in E. apply Bool.not_true_is_false. intros T. apply E, H, X, T.
Qed.

(** ** Counting *)
Lemma squares_app a b : squares (a ++ b) = squares a + squares b.
Proof. unfold squares. rewrite filter_app, map_app. apply total_app. Qed.
Lemma squares_one v : squares [v] = if fits32 v then v * v else 0.
Proof.
  unfold squares, fits32. cbn [filter]. replace (v <=? 2 ^ 31 - 1) with (v <? 2 ^ 31)
    by (destruct (Z.ltb_spec v (2 ^ 31)), (Z.leb_spec v (2 ^ 31 - 1)); lia).
  destruct (_ && _)%bool; cbn; lia.
Qed.
Lemma total_one v : total [v] = v.
Proof. unfold total. cbn. lia. Qed.

Lemma counted_new div off : counted [] (hist_new div off).
Proof.
  constructor; try reflexivity. intros j J. cbn [h_data hist_new]. rewrite (nth_repeat 0 _ j).
  reflexivity.
Qed.
Lemma record_parts h v h' : hist_record h v = Ret h' ->
  ctr_record (h_ctr h) v = Ret (h_ctr h') /\ h_div h' = h_div h /\ h_off h' = h_off h /\
  h_data h' = add_nth (h_data h) (slot (Z.quot (v - h_off h) (h_div h))) 1.
Proof.
  intros H. unfold hist_record in H. step H. step H. apply ck64_ret in H1. destruct H1 as [<- _].
  destruct (h_div h =? 0); [discriminate|]. step H. apply ck64_ret in H1. destruct H1 as [<- _].
  rewrite hist_slot_is in H. cbn [obind] in H. step H. injection H as <-.
  cbn [h_ctr h_data h_div h_off]. auto.
Qed.
Lemma ctr_record_parts c v c' : ctr_record c v = Ret c' ->
  ct_count c' = ct_count c + 1 /\ ct_sum c' = ct_sum c + v /\ ct_sq c' = ct_sq c + squares [v] /\
  ct_realMin c' = (if ct_count c + 1 =? 1 then v else Z.min (ct_realMin c) v) /\
  ct_max c' = (if ct_count c + 1 =? 1 then v else Z.max (ct_max c) v) /\
  ct_min c' = (let m := if ct_count c + 1 =? 1 then v else ct_min c in
               if negb (v =? 0) && ((m =? 0) || (v <? m)) then v else m).
Proof.
  intros H. unfold ctr_record in H. step H. step H. step H.
  apply ck64_ret in H0, H1, H2. destruct H0 as [<- _], H1 as [<- _], H2 as [<- _]. injection H as <-. cbn [ct_count ct_sum ct_sq ct_realMin ct_max ct_min].
  rewrite squares_one. repeat split.
  - destruct (ct_count c + 1 =? 1); [rewrite Z.ltb_irrefl; reflexivity|]. destruct (Z.ltb_spec v (ct_realMin c)); lia.
  - destruct (ct_count c + 1 =? 1); [rewrite Z.ltb_irrefl; reflexivity|]. destruct (Z.ltb_spec (ct_max c) v); lia.
Qed.
Lemma counted_record l h v h' : 0 < h_div h -> counted l h -> hist_record h v = Ret h' -> counted (l ++ [v]) h'.
Proof.
  intros D C R. apply record_parts in R. destruct R as (R & Ed & Eo & Ex). apply ctr_record_parts in R.
  destruct R as (E1 & E2 & E3 & _), C as [C1 C2 C3 C4 C5]. constructor.
  - rewrite E1, C1, zlen_app. reflexivity.
  - rewrite E2, C2, total_app, total_one. reflexivity.
  - rewrite E3, C3, squares_app. reflexivity.
  - rewrite Ex, add_nth_length. exact C4.
  - intros j J. rewrite Ex, add_nth_at by (rewrite C4; exact (le_n_S _ _ (slot_bound _))).
    rewrite C5, Ed, Eo by exact J. rewrite count_app, count_one, slot_range by assumption. reflexivity.
Qed.
Lemma add_slots_nth a : forall b c, add_slots a b = Ret c -> length a = length b ->
  length c = length a /\ forall j, nth j c 0 = nth j a 0 + nth j b 0.
Proof.
  induction a as [|x a IH]; intros [|y b] c H L; try discriminate L; cbn in H.
  - injection H as <-. split; [reflexivity|]. intros [|j]; reflexivity.
  - step H. step H. injection H as <-. apply ck32_ret in H0. subst x0. injection L as L.
    destruct (IH _ _ H1 L) as [A B]. split; [cbn; congruence|]. intros [|j]; cbn; auto.
Qed.
Lemma ctr_merge_parts a b c : ctr_merge a b = Ret c ->
  ct_count c = ct_count a + ct_count b /\ ct_sum c = ct_sum a + ct_sum b /\ ct_sq c = ct_sq a + ct_sq b /\
  ct_realMin c = ct_realMin a /\ ct_max c = Z.max (ct_max a) (ct_max b) /\
  ct_min c = (if ct_min b =? 0 then ct_min a else Z.min (ct_min a) (ct_min b)).
Proof.
  intros H. unfold ctr_merge in H. step H. step H. step H.
  apply ck64_ret in H0, H1, H2. destruct H0 as [<- _], H1 as [<- _], H2 as [<- _]. injection H as <-. cbn.
  repeat split.
  - destruct (Z.ltb_spec (ct_max a) (ct_max b)); lia.
  - destruct (ct_min b =? 0); [reflexivity|]. cbn [negb andb]. destruct (Z.ltb_spec (ct_min b) (ct_min a)); lia.
Qed.
Lemma merge_parts a b h : hist_merge a b = Ret h ->
  ctr_merge (h_ctr a) (h_ctr b) = Ret (h_ctr h) /\ add_slots (h_data a) (h_data b) = Ret (h_data h) /\
  h_div h = h_div a /\ h_off h = h_off a.
Proof. intros H. unfold hist_merge in H. step H. step H. injection H as <-. cbn. auto. Qed.
Lemma counted_merge l m a b h : h_div a = h_div b -> h_off a = h_off b -> counted l a -> counted m b -> hist_merge a b = Ret h ->
  counted (l ++ m) h.
Proof.
  intros D O A B H. apply merge_parts in H. destruct H as (R & S & Ed & Eo). apply ctr_merge_parts in R.
  destruct R as (E1 & E2 & E3 & _), A as [A1 A2 A3 A4 A5], B as [B1 B2 B3 B4 B5].
  apply add_slots_nth in S; [|congruence]. destruct S as [L S]. constructor.
  - rewrite E1, A1, B1, zlen_app. reflexivity.
  - rewrite E2, A2, B2, total_app. reflexivity.
  - rewrite E3, A3, B3, squares_app. reflexivity.
  - congruence.
  - intros j J. rewrite S, A5, B5, Ed, Eo, count_app, D, O by exact J. reflexivity.
Qed.
Lemma counted_reset h : counted [] (hist_reset h).
Proof.
  constructor; try reflexivity. intros j J. cbn [h_data hist_reset]. rewrite (nth_repeat 0 _ j). reflexivity.
Qed.

(** All operations. *)
Definition Hinv (div off : Z) (ops : list hop) (s : list hist) : Prop :=
  forall i h, nth_error s i = Some h -> h_div h = div /\ h_off h = off /\ counted (went_in ops i) h.
Lemma hinv_step div off ops s o s' : 0 < div -> Hinv div off ops s -> hop_step s o = Ret s' -> Hinv div off (o :: ops) s'.
Proof.
  intros D I H i h N. destruct o as [k v|k j|k]; cbn [hop_step] in H; cbn [went_in].
  - destruct (nth_error s k) as [g|] eqn:G; [|discriminate]. step H. injection H as <-.
    destruct (I k g G) as (Gd & Go & Gc). pose proof (record_parts _ _ _ H0) as (_ & Rd & Ro & _).
    destruct (Nat.eqb_spec i k) as [->|K].
    + rewrite (nth_set_same _ _ _ _ G) in N. injection N as <-. split; [congruence|]. split; [congruence|].
      eapply counted_record; [rewrite Gd; exact D|exact Gc|exact H0].
    + rewrite nth_set_other in N by congruence. apply I, N.
  - destruct (nth_error s k) as [g|] eqn:G; [|discriminate]. destruct (nth_error s j) as [b|] eqn:B; [|discriminate].
    step H. injection H as <-. destruct (I k g G) as (Gd & Go & Gc), (I j b B) as (Bd & Bo & Bc).
    pose proof (merge_parts _ _ _ H0) as (_ & _ & Rd & Ro).
    destruct (Nat.eqb_spec i k) as [->|K].
    + rewrite (nth_set_same _ _ _ _ G) in N. injection N as <-. split; [congruence|]. split; [congruence|].
      eapply counted_merge; [| |exact Gc|exact Bc|exact H0]; congruence.
    + rewrite nth_set_other in N by congruence. apply I, N.
  - destruct (nth_error s k) as [g|] eqn:G; [|discriminate]. injection H as <-. destruct (I k g G) as (Gd & Go & Gc).
    destruct (Nat.eqb_spec i k) as [->|K].
    + rewrite (nth_set_same _ _ _ _ G) in N. injection N as <-. split; [exact Gd|]. split; [exact Go|]. apply counted_reset.
    + rewrite nth_set_other in N by congruence. apply I, N.
Qed.
Lemma hinv_run div off l : 0 < div -> forall ops s s', Hinv div off ops s -> hop_run s l = Ret s' -> Hinv div off (rev l ++ ops) s'.
Proof.
  intros D. induction l as [|o l IH]; intros ops s s' I H; cbn in *.
  - injection H as <-. exact I.
  - step H. rewrite <- app_assoc. cbn [app]. eapply IH; [|exact H]. eapply hinv_step; eauto.
Qed.
Lemma all_counted div off n l s i h : 0 < div -> hop_run (repeat (hist_new div off) n) l = Ret s ->
  nth_error s i = Some h -> counted (went_in (rev l) i) h /\ h_div h = div /\ h_off h = off.
Proof.
  intros D R N. assert (I : Hinv div off [] (repeat (hist_new div off) n)).
  { intros k g G. apply nth_error_In, repeat_spec in G. subst. split; [reflexivity|]. split; [reflexivity|]. apply counted_new. }
  destruct (hinv_run div off l D [] _ _ I R i h N) as (A & B & C). rewrite app_nil_r in C. auto.
Qed.
(** Every value is in one slot. *)
Lemma one_slot div off v : 0 < div -> exists j, (j <= 55)%nat /\ in_range div off j v = true /\
  forall k, (k <= 55)%nat -> in_range div off k v = true -> k = j.
Proof.
  intros D. exists (slot (Z.quot (v - off) div)). split; [apply slot_bound|]. split.
  - rewrite <- slot_range by (try assumption; apply slot_bound). apply Nat.eqb_refl.
  - intros k K H. rewrite <- slot_range in H by assumption. apply Nat.eqb_eq in H. symmetry. exact H.
Qed.

(** The table of all values is made without reading outside, and the check behind it holds. *)
Lemma table : (forall i, Z.of_nat i < kLastValue -> exists k, lookup i = Ret k /\ (k < 55)%nat /\ in_range 1 0 k (Z.of_nat i) = true) /\
  (forall i, Z.of_nat i = kLastValue - 1 -> lookup i = Ret 54%nat).
Proof.
  split.
  - intros i H. exists (slot (Z.of_nat i)). split; [apply lookup_slot, H|]. split; [apply slot_mid, H|].
    rewrite <- slot_range by (try lia; apply slot_bound). rewrite Z.sub_0_r, Z.quot_1_r. apply Nat.eqb_refl.
  - intros i H. rewrite lookup_slot by lia. rewrite H. vm_compute. reflexivity.
Qed.

(** ** Smallest and greatest *)
Lemma nonzero_app a b : nonzero (a ++ b) = nonzero a ++ nonzero b.
Proof. apply filter_app. Qed.
Lemma least_snoc l v m : least l m -> least (l ++ [v]) (Z.min m v).
Proof.
  intros [A B]. split.
  - apply in_or_app. destruct (Z.min_spec m v) as [[_ ->]|[_ ->]]; [left; exact A|right; left; reflexivity].
  - apply Forall_app. split; [eapply Forall_impl; [|exact B]; cbn; intros; lia|]. repeat constructor. lia.
Qed.
Lemma greatest_snoc l v m : greatest l m -> greatest (l ++ [v]) (Z.max m v).
Proof.
  intros [A B]. split.
  - apply in_or_app. destruct (Z.max_spec m v) as [[_ ->]|[_ ->]]; [right; left; reflexivity|left; exact A].
  - apply Forall_app. split; [eapply Forall_impl; [|exact B]; cbn; intros; lia|]. repeat constructor. lia.
Qed.
Lemma least_zero l m : least (nonzero l) m -> m <> 0.
Proof. intros [A _] ->. apply filter_In in A. destruct A as [_ A]. discriminate A. Qed.

Lemma extremes_record l h v h' : counted l h -> l <> [] -> extremes l h -> hist_record h v = Ret h' -> extremes (l ++ [v]) h'.
Proof.
  intros C N (A & B & M) R. apply record_parts in R. destruct R as (R & _). apply ctr_record_parts in R.
  destruct R as (_ & _ & _ & E1 & E2 & E3).
  assert (K : (ct_count (h_ctr h) + 1 =? 1) = false).
  { rewrite (cd_count _ _ C). destruct l; [congruence|]. unfold zlen. cbn [length]. apply Z.eqb_neq. lia. }
  rewrite K in E1, E2, E3. cbv zeta in E3. split; [rewrite E1; apply least_snoc, A|]. split; [rewrite E2; apply greatest_snoc, B|].
  rewrite nonzero_app, E3.
  replace (nonzero [v]) with (if v =? 0 then [] else [v]) by (unfold nonzero; cbn [filter]; destruct (v =? 0); reflexivity).
  destruct (v =? 0) eqn:Ev; cbn [negb andb].
  - rewrite app_nil_r. exact M.
  - right. destruct M as [[M ->]|M].
    + rewrite M. cbn [Z.eqb orb app]. split; [left; reflexivity|]. repeat constructor. lia.
    + pose proof (least_zero _ _ M) as Z0. apply Z.eqb_neq in Z0. rewrite Z0. cbn [orb].
      replace (if v <? ct_min (h_ctr h) then v else ct_min (h_ctr h)) with (Z.min (ct_min (h_ctr h)) v)
        by (destruct (Z.ltb_spec v (ct_min (h_ctr h))); lia).
      apply least_snoc, M.
Qed.
Lemma extremes_first h v h' : counted [] h -> hist_record h v = Ret h' -> extremes [v] h'.
Proof.
  intros C R. apply record_parts in R. destruct R as (R & _). apply ctr_record_parts in R.
  destruct R as (_ & _ & _ & E1 & E2 & E3). rewrite (cd_count _ _ C) in *. cbn in E1, E2, E3.
  split; [rewrite E1; split; [left; reflexivity|repeat constructor; lia]|].
  split; [rewrite E2; split; [left; reflexivity|repeat constructor; lia]|].
  rewrite E3. unfold nonzero. cbn [filter]. destruct (v =? 0) eqn:Ev; cbn [negb andb orb].
  - left. apply Z.eqb_eq in Ev. auto.
  - right. rewrite Z.ltb_irrefl. split; [left; reflexivity|repeat constructor; lia].
Qed.
Lemma records_from l : forall done h h', 0 < h_div h -> counted done h -> (done <> [] -> extremes done h) ->
  hist_records h l = Ret h' ->
  counted (done ++ l) h' /\ (done ++ l <> [] -> extremes (done ++ l) h') /\ h_div h' = h_div h /\ h_off h' = h_off h.
Proof.
  induction l as [|v l IH]; intros done h h' D C E R; cbn in R.
  - injection R as <-. rewrite app_nil_r. auto.
  - step R. rename x into g. pose proof (record_parts _ _ _ H) as (_ & Gd & Go & _).
    destruct (IH (done ++ [v]) g h') as (A & B & Ed & Eo).
    + rewrite Gd. exact D.
    + eapply counted_record; eauto.
    + intros _. destruct done as [|x done]; [eapply extremes_first; eauto|].
      eapply extremes_record; eauto; [discriminate|apply E; discriminate].
    + exact R.
    + rewrite <- app_assoc in A, B. split; [exact A|]. split; [exact B|]. split; congruence.
Qed.
Lemma recorded_figures div off l h : 0 < div -> hist_records (hist_new div off) l = Ret h ->
  counted l h /\ (l <> [] -> extremes l h) /\ h_div h = div /\ h_off h = off.
Proof.
  intros D R. refine (records_from l [] (hist_new div off) h D (counted_new div off) _ R). intros N. elim N. reflexivity.
Qed.

(** After a reset a histogram is as good as new. *)
Lemma reset_is_new h v : length (h_data h) = 56%nat ->
  hist_record (hist_reset h) v = hist_record (hist_new (h_div h) (h_off h)) v.
Proof. intros L. reflexivity. Qed.
Lemma reset_records h v l : hist_records (hist_reset h) (v :: l) = hist_records (hist_new (h_div h) (h_off h)) (v :: l).
Proof. reflexivity. Qed.

(** ** Percentiles *)
Definition low_end (div off : Z) (k : nat) : option Z :=
  match k with O => None | S i => Some (nth i kHistogramBuckets 0 * div + off) end.
Definition so_far (l : list Z) (div off : Z) (k : nat) : Z :=
  match low_end div off k with None => 0 | Some e => below_of l e end.
Lemma ends_lt i e : nth_error kHistogramBuckets (S i) = Some e -> nth i kHistogramBuckets 0 < e.
Proof.
  pose proof ends_sorted as S. revert S i. generalize kHistogramBuckets.
  induction l as [|x l IH]; intros S i H; [discriminate|]. inversion S; subst. destruct i as [|i]; cbn [nth nth_error] in *.
  - rewrite Forall_forall in H3. apply H3. apply (nth_error_In l 0). exact H.
  - apply IH; assumption.
Qed.
Lemma so_far_next l div off k e : 0 < div -> nth_error kHistogramBuckets k = Some e ->
  below_of l (e * div + off) = so_far l div off k + count_if (in_range div off k) l.
Proof.
  intros D N. unfold so_far, below_of, low_end, in_range. rewrite N. destruct k as [|i].
  - cbn [andb]. reflexivity.
  - apply ends_lt in N. set (a := nth i kHistogramBuckets 0 * div + off). assert (A : a < e * div + off) by (unfold a; nia).
    clearbody a. induction l as [|v l IH]; [reflexivity|].
    rewrite !(count_cons _ v l), IH.
    destruct (Z.ltb_spec v (e * div + off)), (Z.ltb_spec v a), (Z.leb_spec a v); cbn [andb]; lia.
Qed.

Definition share (c n : Z) : Q := (100 * c) # Z.to_pos n.
Lemma share_lt c n p : 0 < n -> ((share c n < p)%Q <-> (inject_Z (100 * c) < p * inject_Z n)%Q).
Proof.
  intros N. unfold share, Qlt, inject_Z, Qmult. destruct p as [x y]. cbn [Qnum Qden].
  rewrite Z2Pos.id by exact N. rewrite Pos.mul_1_r. nia.
Qed.
Lemma share_ge c n p : 0 < n -> ((p <= share c n)%Q <-> (p * inject_Z n <= inject_Z (100 * c))%Q).
Proof.
  intros N. unfold share, Qle, inject_Z, Qmult. destruct p as [x y]. cbn [Qnum Qden].
  rewrite Z2Pos.id by exact N. rewrite Pos.mul_1_r. nia.
Qed.
Lemma share_eq c n : 0 < n -> (share c n * inject_Z n == inject_Z (100 * c))%Q.
Proof.
  intros N. unfold share, Qeq, inject_Z, Qmult. cbn [Qnum Qden]. rewrite Pos.mul_1_r, Z2Pos.id by exact N. lia.
Qed.
Lemma share_mono a b n : 0 < n -> a <= b -> (share a n <= share b n)%Q.
Proof. intros N H. unfold share, Qle. cbn [Qnum Qden]. apply Z.mul_le_mono_nonneg_r; lia. Qed.

Lemma below_le l a b : a <= b -> below_of l a <= below_of l b.
Proof.
  intros H. unfold below_of. induction l as [|v l IH]; [cbn; lia|]. rewrite !(count_cons _ v l).
  destruct (Z.ltb_spec v a), (Z.ltb_spec v b); lia.
Qed.
Lemma below_none l m x : Forall (fun v => m <= v) l -> x <= m -> below_of l x = 0.
Proof.
  intros F H. unfold below_of. induction F as [|v l V F IH]; [reflexivity|]. rewrite (count_cons _ v l), IH.
  destruct (Z.ltb_spec v x); lia.
Qed.
Lemma below_some l x : 0 < below_of l x -> exists v, In v l /\ v < x.
Proof.
  unfold below_of. induction l as [|v l IH]; [cbn; lia|]. rewrite (count_cons _ v l).
  destruct (Z.ltb_spec v x); intros Hp.
  - exists v. split; [left; reflexivity|assumption].
  - destruct IH as (w & W & L); [lia|]. exists w. split; [right; exact W|exact L].
Qed.
Lemma below_pos l x : 0 <= below_of l x.
Proof. unfold below_of, count_if, zlen. lia. Qed.

(** Where the loop ends. *)
Definition ends_at (l : list Z) (max div off : Z) (p : Q) (r : Z * Z * Q * Q) : Prop :=
  let '(prev, cur, prevPerc, perc) := r in
  exists k a b, (k <= 55)%nat /\ match low_end div off k with None => prev = 0 | Some e => prev = e end /\
    match nth_error kHistogramBuckets k with Some e => cur <= e * div + off | None => True end /\
    a = so_far l div off k /\ (prevPerc == share a (zlen l))%Q /\ (perc == share b (zlen l))%Q /\
    (prevPerc < p)%Q /\ (p <= perc)%Q /\ cur <= max /\
    ((b = below_of l cur) \/ (b = zlen l /\ cur = max)).
Lemma pct_loop_ends l max div off p : 0 < div -> l <> [] -> (0 < p)%Q -> (p < 100)%Q ->
  forall es ds k prev r, 
  (k + length es = 55)%nat -> length ds = S (length es) ->
  (forall i, nth_error es i = nth_error kHistogramBuckets (k + i)) ->
  (forall i, (i < length ds)%nat -> nth i ds 0 = count_if (in_range div off (k + i)) l) ->
  match low_end div off k with None => prev = 0 | Some e => prev = e end ->
  (share (so_far l div off k) (zlen l) < p)%Q ->
  forall pp, (pp == share (so_far l div off k) (zlen l))%Q ->
  pct_loop p (zlen l) max div off es ds prev (so_far l div off k) pp = Ret r -> ends_at l max div off p r.
Proof.
  intros D L P0 P1. assert (N : 0 < zlen l) by (destruct l; [congruence|unfold zlen; cbn [length]; lia]).
  assert (F : (100 == share (zlen l) (zlen l))%Q).
  { unfold share, Qeq. cbn [Qnum Qden]. rewrite Z2Pos.id by exact N. lia. }
  assert (P1' : (p <= 100)%Q) by (apply Qlt_le_weak; exact P1).
  induction es as [|e es IH]; intros ds k prev r K LD Es Ds Pv Sh pp Pp H.
  - cbn [pct_loop] in H. destruct ds; injection H as <-; (exists k, (so_far l div off k), (zlen l));
    (replace k with 55%nat in * by (cbn [length] in K; lia));
    repeat apply conj; auto; try lia; try (rewrite Pp; exact Sh); try reflexivity.
  - destruct ds as [|d ds]; [discriminate|]. cbn [pct_loop] in H. step H. apply ck64_ret in H0. destruct H0 as [<- _].
    assert (Ek : nth_error kHistogramBuckets k = Some e) by (rewrite <- (Nat.add_0_r k), <- Es; reflexivity).
    assert (Sn : so_far l div off k + d = below_of l (e * div + off)).
    { rewrite (so_far_next l div off k e D Ek). f_equal. specialize (Ds 0%nat). rewrite Nat.add_0_r in Ds. apply Ds. cbn. lia. }
    assert (Sk : so_far l div off (S k) = below_of l (e * div + off)).
    { unfold so_far, low_end. rewrite (nth_error_nth _ _ 0 Ek). reflexivity. }
    rewrite Sn in H. cbn [length] in K, LD. destruct (Z.ltb_spec max (e * div + off)).
    + injection H as <-. exists k, (so_far l div off k), (zlen l). rewrite Ek.
      repeat apply conj; auto; try lia; try (rewrite Pp; exact Sh); try reflexivity.
    + fold (share (below_of l (e * div + off)) (zlen l)) in H.
      destruct (Qle_bool p (share (below_of l (e * div + off)) (zlen l))) eqn:Q.
      * apply Qle_bool_iff in Q. injection H as <-. exists k, (so_far l div off k), (below_of l (e * div + off)). rewrite Ek.
        repeat apply conj; auto; try lia; try (rewrite Pp; exact Sh); try reflexivity.
      * assert (Q' : (share (below_of l (e * div + off)) (zlen l) < p)%Q).
        { apply Qnot_le_lt. intros X. apply Qle_bool_iff in X. congruence. }
        rewrite <- Sk in H, Q'. eapply IH; [| | | | |exact Q'| |exact H].
        -- lia.
        -- lia.
        -- intros i. specialize (Es (S i)). rewrite <- plus_n_Sm in Es. exact Es.
        -- intros i I. specialize (Ds (S i)). rewrite <- plus_n_Sm in Ds. apply Ds. cbn [length]. lia.
        -- unfold low_end. rewrite (nth_error_nth _ _ 0 Ek). reflexivity.
        -- reflexivity.
Qed.

Lemma Qle_bool_no x y : (y < x)%Q -> Qle_bool x y = false.
Proof. intros H. apply Bool.not_true_is_false. intros X. apply Qle_bool_iff in X. lra. Qed.
(** Dividing an interval. *)
Lemma between (lo hi p a b : Q) : (lo <= hi)%Q -> (a < p)%Q -> (p <= b)%Q ->
  (lo <= lo + (p - a) * (hi - lo) / (b - a) <= hi)%Q.
Proof.
  intros H A B. assert (0 < b - a)%Q by lra. set (t := ((p - a) / (b - a))%Q).
  assert (T : (t * (b - a) == p - a)%Q) by (unfold t; field; lra).
  assert (E : (lo + (p - a) * (hi - lo) / (b - a) == lo + t * (hi - lo))%Q) by (unfold t; field; lra).
  rewrite E. assert (T0 : (0 <= t)%Q) by nra. assert (T1 : (t <= 1)%Q) by nra. split; nra.
Qed.
Lemma dividing (lo hi p a b n : Q) : (a < b)%Q ->
  ((lo + (p - a) * (hi - lo) / (b - a) - lo) * (b * n - a * n) == (hi - lo) * (p * n - a * n))%Q.
Proof. intros H. field. lra. Qed.

Lemma percentile_loop h l p r : 0 < h_div h -> l <> [] -> counted l h -> (0 < p)%Q -> (p < 100)%Q ->
  calcPercentile h p = Ret r ->
  exists prev cur pp pc, pct_loop p (zlen l) (ct_max (h_ctr h)) (h_div h) (h_off h) kHistogramBuckets (h_data h) 0 0 0%Q
      = Ret (prev, cur, pp, pc) /\ ends_at l (ct_max (h_ctr h)) (h_div h) (h_off h) p (prev, cur, pp, pc) /\
    r = (let lo := if prev <? ct_realMin (h_ctr h) then ct_realMin (h_ctr h) else prev in
         inject_Z lo + (p - pp) * inject_Z (cur - lo) / (pc - pp))%Q.
Proof.
  intros D L C P0 P1 R. unfold calcPercentile in R. cbv zeta in R. rewrite !Qle_bool_no in R by assumption.
  rewrite (cd_count _ _ C) in R. assert (N : 0 < zlen l) by (destruct l; [congruence|unfold zlen; cbn [length]; lia]).
  replace (zlen l <=? 0) with false in R by (symmetry; apply Z.leb_gt; exact N). step R.
  destruct x as [[[prev cur] pp] pc]. injection R as <-. exists prev, cur, pp, pc. split; [exact H|]. split; [|reflexivity].
  eapply (pct_loop_ends l _ _ _ p D L P0 P1 kHistogramBuckets (h_data h) 0 0); try exact H.
  - reflexivity.
  - rewrite (cd_len _ _ C). reflexivity.
  - reflexivity.
  - intros i I. rewrite (cd_len _ _ C) in I. apply (cd_slots _ _ C). lia.
  - reflexivity.
  - unfold so_far, low_end. apply (proj2 (share_lt 0 (zlen l) p N)). rewrite Z.mul_0_r.
    assert (0 < inject_Z (zlen l))%Q by (change 0%Q with (inject_Z 0); rewrite <- Zlt_Qlt; exact N). change (inject_Z 0) with 0%Q. nra.
  - reflexivity.
Qed.
Lemma lo_facts l min prev : Forall (fun v => min <= v) l -> let lo := if prev <? min then min else prev in
  min <= lo /\ prev <= lo /\ below_of l lo = below_of l prev.
Proof.
  intros F lo. unfold lo. destruct (Z.ltb_spec prev min); [|lia]. split; [lia|]. split; [lia|].
  rewrite !(below_none l min) by (try assumption; lia). reflexivity.
Qed.
(** What the loop finds, seen from the values. *)
Lemma ends_at_facts l min max div off p prev cur pp pc : 0 < div -> l <> [] -> (0 < p)%Q -> 0 <= min ->
  Forall (fun v => min <= v <= max) l -> ends_at l max div off p (prev, cur, pp, pc) ->
  let lo := if prev <? min then min else prev in
  exists k a b, (k <= 55)%nat /\ match k with O => True | S i => nth i kHistogramBuckets 0 * div + off <= lo end /\
    match nth_error kHistogramBuckets k with Some e => cur <= e * div + off | None => True end /\
    min <= lo <= cur /\ prev <= lo /\ cur <= max /\ a = below_of l lo /\ (b = below_of l cur \/ b = zlen l /\ cur = max) /\
    (pp == share a (zlen l))%Q /\ (pc == share b (zlen l))%Q /\ (pp < p)%Q /\ (p <= pc)%Q.
Proof.
  intros D L P0 M F (k & a & b & K & Pv & Cu & Ea & Pp & Pc & H1 & H2 & Cm & Hb) lo.
  assert (N : 0 < zlen l) by (destruct l; [congruence|unfold zlen; cbn [length]; lia]).
  assert (F1 : Forall (fun v => min <= v) l) by (eapply Forall_impl; [|exact F]; cbn; lia).
  destruct (lo_facts l min prev F1) as (L1 & L2 & L3). fold lo in L1, L2, L3.
  assert (A : a = below_of l lo).
  { rewrite L3, Ea. unfold so_far. destruct (low_end div off k) as [e|]; subst prev; [reflexivity|].
    symmetry. apply below_none with (m := min); assumption. }
  exists k, a, b. split; [exact K|]. split.
  { destruct k as [|i]; [exact I|]. cbn [low_end] in Pv. lia. }
  split; [exact Cu|]. split; [|repeat apply conj; assumption]. split; [exact L1|].
  (* some value is not below lo and below cur, or cur is the maximum *)
  assert (ML : min <= max) by (destruct l as [|v l']; [congruence|]; inversion F; lia).
  destruct Hb as [Hb|[Hb ->]].
  - destruct (Z_lt_le_dec cur lo) as [X|X]; [|exact X]. exfalso.
    assert (b <= a) by (rewrite A, Hb; apply below_le; lia).
    pose proof (share_mono b a (zlen l) N H). lra.
  - unfold lo. destruct (Z.ltb_spec prev min); [exact ML|]. destruct (low_end div off k) as [e|] eqn:E; [|lia].
    subst e. destruct (Z_lt_le_dec max prev) as [X|X]; [|exact X]. exfalso.
    assert (W : below_of l prev = zlen l).
    { clear - F X. unfold below_of. induction F as [|v l V F IH]; [reflexivity|]. rewrite (count_cons _ v l), IH.
      destruct (Z.ltb_spec v prev); [|lia]. unfold zlen. cbn [length]. lia. }
    assert (a = b) by (subst b; rewrite A; unfold lo; destruct (Z.ltb_spec prev min); [lia|exact W]). subst a. rewrite <- H0 in *. lra.
Qed.
Lemma percentile_near h l p r : 0 < h_div h -> l <> [] -> counted l h -> bounded l h -> (0 < p)%Q -> (p < 100)%Q ->
  calcPercentile h p = Ret r -> near_percentile l (ct_realMin (h_ctr h)) (ct_max (h_ctr h)) (h_div h) (h_off h) p r.
Proof.
  intros D L C [M F] P0 P1 R. destruct (percentile_loop h l p r D L C P0 P1 R) as (prev & cur & pp & pc & _ & E & ->).
  destruct (ends_at_facts l _ _ _ _ p prev cur pp pc D L P0 M F E) as (k & a & b & K & Lo & Cu & [M1 M2] & Pl & Cm & A & B & Pp & Pc & H1 & H2).
  cbv zeta. set (lo := if prev <? ct_realMin (h_ctr h) then ct_realMin (h_ctr h) else prev) in *. clearbody lo.
  assert (N : 0 < zlen l) by (destruct l; [congruence|unfold zlen; cbn [length]; lia]).
  assert (IS : (inject_Z (cur - lo) == inject_Z cur - inject_Z lo)%Q) by (unfold Z.sub; rewrite inject_Z_plus, inject_Z_opp; reflexivity).
  exists k, lo, cur, a, b. repeat apply conj; try assumption.
  - rewrite IS. apply between; try assumption. rewrite <- Zle_Qle. exact M2.
  - rewrite IS. apply between; try assumption. rewrite <- Zle_Qle. exact M2.
  - apply share_lt; [exact N|]. lra.
  - apply share_ge; [exact N|]. lra.
  - rewrite IS. pose proof (share_eq a (zlen l) N) as Sa. pose proof (share_eq b (zlen l) N) as Sb.
    rewrite <- Pp in Sa. rewrite <- Pc in Sb.
    assert (X : (inject_Z (100 * (b - a)) == pc * inject_Z (zlen l) - pp * inject_Z (zlen l))%Q).
    { rewrite Sa, Sb. replace (100 * (b - a)) with (100 * b + - (100 * a)) by lia. rewrite inject_Z_plus, inject_Z_opp. reflexivity. }
    rewrite X, <- Sa. apply dividing. lra.
Qed.

(** A greater percentage never gives a smaller answer. *)
Lemma pct_prev p n max div off : 0 < div -> forall es ds prev total pp pr cu a b, StronglySorted Z.lt es ->
  Forall (fun e => prev <= e * div + off) es ->
  pct_loop p n max div off es ds prev total pp = Ret (pr, cu, a, b) -> prev <= pr.
Proof.
  intros D. induction es as [|e es IH]; intros ds prev total pp pr cu a b S F H; cbn [pct_loop] in H.
  - injection H as -> _ _ _. lia.
  - destruct ds as [|d ds]; [injection H as -> _ _ _; lia|]. step H. apply ck64_ret in H0. destruct H0 as [<- _].
    inversion S; subst. inversion F; subst. cbv zeta in H.
    destruct (max <? _); [injection H as -> _ _ _; lia|]. destruct (Qle_bool p _); [injection H as -> _ _ _; lia|].
    apply IH in H; [lia|assumption|]. eapply Forall_impl; [|exact H3]. cbn. intros x Hx. nia.
Qed.
Lemma pct_mono p q n max div off : 0 < div -> (p <= q)%Q -> forall es ds prev total pp pr cu a b pr' cu' a' b',
  StronglySorted Z.lt es ->
  pct_loop p n max div off es ds prev total pp = Ret (pr, cu, a, b) ->
  pct_loop q n max div off es ds prev total pp = Ret (pr', cu', a', b') ->
  (pr', cu', a', b') = (pr, cu, a, b) \/ cu <= pr'.
Proof.
  intros D PQ. induction es as [|e es IH]; intros ds prev total pp pr cu a b pr' cu' a' b' S H H'; cbn [pct_loop] in H, H'.
  - left. congruence.
  - destruct ds as [|d ds]; [left; congruence|]. step H. step H'. assert (x0 = x) by congruence. subst x0.
    apply ck64_ret in H0. destruct H0 as [<- _]. inversion S; subst. cbv zeta in H, H'.
    destruct (max <? _); [left; congruence|]. destruct (Qle_bool p _) eqn:P.
    + destruct (Qle_bool q _) eqn:Q; [left; congruence|]. right. injection H as -> <- _ _.
      apply (pct_prev _ _ _ _ _ D) in H'; [exact H'|assumption|]. eapply Forall_impl; [|exact H4]. cbn. intros x Hx. nia.
    + destruct (Qle_bool q _) eqn:Q.
      * apply Qle_bool_iff in Q. exfalso.
        assert (X : Qle_bool p (100 * (total + d) # Z.to_pos n) = true) by (apply Qle_bool_iff; lra). congruence.
      * eapply IH; eauto.
Qed.
Lemma percentile_bounds h l p r : 0 < h_div h -> l <> [] -> counted l h -> bounded l h -> calcPercentile h p = Ret r ->
  (inject_Z (ct_realMin (h_ctr h)) <= r <= inject_Z (ct_max (h_ctr h)))%Q.
Proof.
  intros D L C B R. assert (ML : (inject_Z (ct_realMin (h_ctr h)) <= inject_Z (ct_max (h_ctr h)))%Q).
  { rewrite <- Zle_Qle. destruct B as [_ F]. destruct l as [|v l]; [congruence|]. inversion F; lia. }
  destruct (Qlt_le_dec p 100) as [P1|P1].
  - destruct (Qlt_le_dec 0 p) as [P0|P0].
    + destruct (percentile_near h l p r D L C B P0 P1 R) as (j & lo & hi & a & b & _ & _ & _ & [M1 M2] & M3 & [R1 R2] & _).
      split; [eapply Qle_trans; [|exact R1]|eapply Qle_trans; [exact R2|]]; rewrite <- Zle_Qle; assumption.
    + unfold calcPercentile in R. rewrite Qle_bool_no in R by exact P1. rewrite (proj2 (Qle_bool_iff _ _) P0) in R.
      injection R as <-. split; [apply Qle_refl|exact ML].
  - unfold calcPercentile in R. rewrite (proj2 (Qle_bool_iff _ _) P1) in R. injection R as <-. split; [exact ML|apply Qle_refl].
Qed.
Lemma percentile_mono h l p q r s : 0 < h_div h -> l <> [] -> counted l h -> bounded l h -> (p <= q)%Q ->
  calcPercentile h p = Ret r -> calcPercentile h q = Ret s -> (r <= s)%Q.
Proof.
  intros D L C B PQ Rp Rq. pose proof (percentile_bounds h l p r D L C B Rp) as Bp.
  pose proof (percentile_bounds h l q s D L C B Rq) as Bq.
  destruct (Qlt_le_dec q 100) as [Q1|Q1].
  2:{ unfold calcPercentile in Rq. rewrite (proj2 (Qle_bool_iff _ _) Q1) in Rq. injection Rq as <-. apply Bp. }
  destruct (Qlt_le_dec 0 p) as [P0|P0].
  2:{ unfold calcPercentile in Rp. rewrite Qle_bool_no in Rp by lra. rewrite (proj2 (Qle_bool_iff _ _) P0) in Rp.
      injection Rp as <-. apply Bq. }
  assert (P1 : (p < 100)%Q) by lra. assert (Q0 : (0 < q)%Q) by lra. destruct B as [M F].
  destruct (percentile_loop h l p r D L C P0 P1 Rp) as (pr & cu & a & b & Lp & Ep & ->).
  destruct (percentile_loop h l q s D L C Q0 Q1 Rq) as (pr' & cu' & a' & b' & Lq & Eq & ->).
  destruct (ends_at_facts l _ _ _ _ p pr cu a b D L P0 M F Ep) as (_ & _ & _ & _ & _ & _ & [M1 M2] & Pl & Cm & _ & _ & _ & _ & H1 & H2).
  destruct (ends_at_facts l _ _ _ _ q pr' cu' a' b' D L Q0 M F Eq) as (_ & _ & _ & _ & _ & _ & [M1' M2'] & Pl' & Cm' & _ & _ & _ & _ & H1' & H2').
  cbv zeta. 
  assert (IS : forall x y, (inject_Z (x - y) == inject_Z x - inject_Z y)%Q) by (intros; unfold Z.sub; rewrite inject_Z_plus, inject_Z_opp; reflexivity).
  destruct (pct_mono p q _ _ _ _ D PQ _ _ _ _ _ _ _ _ _ _ _ _ _ ends_sorted Lp Lq) as [X|X].
  - injection X as -> -> -> ->. set (lo := if pr <? ct_realMin (h_ctr h) then ct_realMin (h_ctr h) else pr) in *. clearbody lo.
    rewrite IS. assert (W : (0 <= inject_Z cu - inject_Z lo)%Q) by (rewrite <- IS; change 0%Q with (inject_Z 0); rewrite <- Zle_Qle; lia).
    set (w := (inject_Z cu - inject_Z lo)%Q) in *. clearbody w. assert (0 < / (b - a))%Q by (apply Qinv_lt_0_compat; lra).
    unfold Qdiv. set (i := (/ (b - a))%Q) in *. clearbody i.
    assert ((p - a) * w <= (q - a) * w)%Q by nra. nra.
  - set (lo := if pr <? ct_realMin (h_ctr h) then ct_realMin (h_ctr h) else pr) in *. clearbody lo.
    set (lo' := if pr' <? ct_realMin (h_ctr h) then ct_realMin (h_ctr h) else pr') in *. clearbody lo'.
    rewrite !IS. apply Qle_trans with (inject_Z cu).
    + apply between; try assumption. rewrite <- Zle_Qle. exact M2.
    + apply Qle_trans with (inject_Z lo'); [rewrite <- Zle_Qle; lia|]. apply between; try assumption. rewrite <- Zle_Qle. exact M2'.
Qed.

(** When the answers are defined. *)
Lemma pct_loop_defined p n max div off : (forall e, 1 <= e <= 100000 -> - 2 ^ 63 <= e * div + off < 2 ^ 63) ->
  forall es ds prev total pp, Forall (fun e => 1 <= e <= 100000) es -> exists r, pct_loop p n max div off es ds prev total pp = Ret r.
Proof.
  intros E. induction es as [|e es IH]; intros ds prev total pp F; cbn [pct_loop]; [eauto|]. destruct ds as [|d ds]; [eauto|].
  inversion F; subst. rewrite ck64_in by (apply E; assumption). cbn [obind].
  destruct (max <? _); [eauto|]. destruct (Qle_bool p _); [eauto|]. apply IH. assumption.
Qed.
Lemma ends_in : Forall (fun e => 1 <= e <= 100000) kHistogramBuckets.
Proof. unfold kHistogramBuckets. repeat constructor; discriminate. Qed.
Lemma percentile_defined h l p : l <> [] -> counted l h ->
  (forall e, 1 <= e <= 100000 -> - 2 ^ 63 <= e * h_div h + h_off h < 2 ^ 63) -> exists r, calcPercentile h p = Ret r.
Proof.
  intros L C E. unfold calcPercentile. cbv zeta. destruct (Qle_bool 100 p); [eauto|]. destruct (Qle_bool p 0); [eauto|].
  rewrite (cd_count _ _ C). assert (N : 0 < zlen l) by (destruct l; [congruence|unfold zlen; cbn [length]; lia]).
  replace (zlen l <=? 0) with false by (symmetry; apply Z.leb_gt; exact N).
  destruct (pct_loop_defined p (zlen l) (ct_max (h_ctr h)) (h_div h) (h_off h) E kHistogramBuckets (h_data h) 0 0 0%Q ends_in) as [[[[? ?] ?] ?] ->].
  cbn [obind]. eauto.
Qed.

Definition absolute (l : list Z) : Z := total (map Z.abs l).
Lemma absolute_app a b : absolute (a ++ b) = absolute a + absolute b.
Proof. unfold absolute. rewrite map_app. apply total_app. Qed.
Lemma absolute_pos l : 0 <= absolute l.
Proof. induction l as [|v l IH]; [cbn; lia|]. change (v :: l) with ([v] ++ l). rewrite absolute_app. unfold absolute at 1. cbn [map]. rewrite total_one. lia. Qed.
Lemma total_absolute l : Z.abs (total l) <= absolute l.
Proof.
  induction l as [|v l IH]; [cbn; lia|]. change (v :: l) with ([v] ++ l). rewrite absolute_app, total_app. unfold absolute at 1. cbn [map].
  rewrite !total_one. lia.
Qed.
Lemma squares_pos l : 0 <= squares l.
Proof.
  induction l as [|v l IH]; [cbn; lia|]. change (v :: l) with ([v] ++ l). rewrite squares_app, squares_one.
  destruct (fits32 v); nia.
Qed.
Lemma count_range P l : 0 <= count_if P l <= zlen l.
Proof.
  induction l as [|v l IH]; [cbn; lia|]. rewrite (count_cons P v l). unfold zlen in *. cbn [length]. destruct (P v); lia.
Qed.
Lemma records_defined l : forall done h, 0 < h_div h -> counted done h ->
  Forall (fun v => - 2 ^ 63 <= v - h_off h < 2 ^ 63) l -> zlen (done ++ l) < 2 ^ 31 -> absolute (done ++ l) < 2 ^ 63 ->
  squares (done ++ l) < 2 ^ 63 -> exists h', hist_records h l = Ret h'.
Proof.
  induction l as [|v l IH]; intros done h D C F N A Q; cbn [hist_records]; [eauto|]. inversion F; subst.
  change (v :: l) with ([v] ++ l) in N, A, Q. rewrite app_assoc in N, A, Q.
  assert (R : exists h', hist_record h v = Ret h').
  { pose proof (absolute_pos l). pose proof (squares_pos l). pose proof (squares_pos done). pose proof (squares_pos [v]).
    pose proof (total_absolute (done ++ [v])) as TA. pose proof A as A'. pose proof Q as Q'. pose proof N as N'.
    rewrite absolute_app in A'. rewrite !squares_app in Q'. rewrite !zlen_app in N'. unfold zlen at 2 3 in N'. cbn [length] in N'.
    pose proof (squares_one v) as Sv. rewrite total_app, total_one in TA.
    assert (Zd : 0 <= zlen done) by (unfold zlen; lia).
    unfold hist_record, ctr_record. rewrite (cd_count _ _ C), (cd_sum _ _ C), (cd_sq _ _ C), <- Sv.
    rewrite ck64_in by lia. cbn [obind]. rewrite ck64_in by lia. cbn [obind]. cbv zeta. rewrite ck64_in by lia. cbn [obind].
    rewrite ck64_in by lia. cbn [obind]. replace (h_div h =? 0) with false by (symmetry; apply Z.eqb_neq; lia).
    rewrite ck64_in.
    - cbn [obind]. rewrite hist_slot_is. cbn [obind]. rewrite (cd_slots _ _ C) by (exact (slot_bound _)).
      pose proof (count_range (in_range (h_div h) (h_off h) (slot (Z.quot (v - h_off h) (h_div h)))) done).
      rewrite ck32_in by lia. cbn [obind]. eauto.
    - set (x := v - h_off h) in *. pose proof (Z.quot_abs x (h_div h) ltac:(lia)) as QA.
      rewrite (Z.abs_eq (h_div h)) in QA by lia. rewrite Z.quot_div_nonneg in QA by lia.
      assert (Z.abs x / h_div h <= Z.abs x) by (apply Z.div_le_upper_bound; nia).
      destruct (Z.eq_dec x (- 2 ^ 63)) as [X|X]; [|lia].
      split; [lia|]. assert (Z.quot x (h_div h) <= 0); [|lia].
      replace x with (- (- x)) by lia. rewrite Z.quot_opp_l by lia. pose proof (Z.quot_pos (- x) (h_div h) ltac:(lia) D). lia. }
  destruct R as [g G]. rewrite G. cbn [obind]. pose proof (record_parts _ _ _ G) as (_ & Gd & Go & _).
  apply (IH (done ++ [v])); try assumption.
  - rewrite Gd. exact D.
  - eapply counted_record; eauto.
  - rewrite Go. assumption.
Qed.

(** ** The standard deviation *)
Lemma spread_cons v l : spread (v :: l) = spread l + (zlen l * (v * v) - 2 * v * total l + total (map (fun v => v * v) l)).
Proof.
  unfold spread. change (v :: l) with ([v] ++ l). rewrite map_app, !total_app, zlen_app. cbn [map]. rewrite !total_one. unfold zlen at 1. cbn [length]. nia.
Qed.
Lemma spread_step v l : 0 <= zlen l * (v * v) - 2 * v * total l + total (map (fun v => v * v) l).
Proof.
  induction l as [|w l IH]; [cbn; lia|]. change (w :: l) with ([w] ++ l). rewrite map_app, !total_app, zlen_app. cbn [map]. rewrite !total_one.
  replace (zlen [w]) with 1 by reflexivity. set (n := zlen l) in *. set (t := total l) in *. set (q := total (map _ l)) in *.
  clearbody n t q. pose proof (Z.square_nonneg (v - w)). lia.
Qed.
Lemma spread_pos l : 0 <= spread l.
Proof. induction l as [|v l IH]; [cbn; lia|]. rewrite spread_cons. pose proof (spread_step v l). lia. Qed.
Lemma squares_all l : Forall (fun v => - 2 ^ 31 <= v < 2 ^ 31) l -> squares l = total (map (fun v => v * v) l).
Proof.
  intros F. unfold squares. rewrite filter_every; [reflexivity|]. eapply Forall_impl; [|exact F]. cbn beta. intros v H.
  apply andb_true_intro. split; apply Z.leb_le; lia.
Qed.
Lemma variance_right l h : counted l h -> l <> [] -> Forall (fun v => - 2 ^ 31 <= v < 2 ^ 31) l ->
  - 2 ^ 31 <= total l < 2 ^ 31 ->
  (inject_Z (spread l) <= ctr_variance (h_ctr h) * inject_Z (zlen l * zlen l) < inject_Z (spread l + zlen l))%Q.
Proof.
  intros C L F T. assert (N : 0 < zlen l) by (destruct l; [congruence|unfold zlen; cbn [length]; lia]).
  unfold ctr_variance. rewrite (cd_count _ _ C), (cd_sum _ _ C), (cd_sq _ _ C), (squares_all l F). cbv zeta.
  replace (zlen l <? 1) with false by (symmetry; apply Z.ltb_ge; lia).
  replace (fits32 (total l)) with true by (symmetry; unfold fits32; apply andb_true_intro; split; [apply Z.leb_le|apply Z.ltb_lt]; lia).
  pose proof (spread_pos l) as SP. unfold spread in *. set (n := zlen l) in *. set (s := total l) in *. set (q := total (map _ l)) in *.
  clearbody n s q. clear C F. rewrite Z.quot_div_nonneg by nia.
  pose proof (Z.mul_div_le (s * s) n N) as D1. pose proof (Z.mul_succ_div_gt (s * s) n N) as D2. set (d := s * s / n) in *. clearbody d.
  assert (0 <= q - d) by nia. replace (q - d <? 0) with false by (symmetry; apply Z.ltb_ge; lia). cbn [negb orb].
  assert (E : ((q - d # Z.to_pos n) * inject_Z (n * n) == inject_Z ((q - d) * n))%Q).
  { unfold Qeq, Qmult, inject_Z. cbn [Qnum Qden]. rewrite Pos.mul_1_r, Z2Pos.id by exact N. nia. }
  rewrite E, <- Zle_Qle, <- Zlt_Qlt. nia.
Qed.

(** ** What is printed *)
Lemma rows_nth div off : forall es ds k prev i, (k + length es = 55)%nat -> (length ds <= S (length es))%nat ->
  (forall i, nth_error es i = nth_error kHistogramBuckets (k + i)) -> prev = low_end div off k ->
  (i < length ds)%nat ->
  nth_error (rows div off es ds prev) i =
    Some (low_end div off (k + i), option_map (fun e => e * div + off) (nth_error kHistogramBuckets (k + i)), nth i ds 0).
Proof.
  induction es as [|e es IH]; intros ds k prev i K LD Es Pv I; (destruct ds as [|d ds]; [cbn in I; lia|]); cbn [rows].
  - cbn [length] in *. assert (i = 0)%nat by lia. subst i. destruct ds; [|cbn in LD; lia]. cbn [nth_error nth].
    rewrite <- Es. cbn. rewrite Nat.add_0_r, Pv. reflexivity.
  - assert (Ek : nth_error kHistogramBuckets k = Some e) by (rewrite <- (Nat.add_0_r k), <- Es; reflexivity).
    rewrite (Z.mul_comm div e). destruct i as [|i].
    + cbn [nth_error nth]. rewrite Nat.add_0_r, Ek, Pv. reflexivity.
    + cbn [nth_error nth length] in *. rewrite <- plus_n_Sm. apply (IH ds (S k)).
      * lia.
      * lia.
      * intros n. specialize (Es (S n)). rewrite <- plus_n_Sm in Es. exact Es.
      * unfold low_end. rewrite (nth_error_nth _ _ 0 Ek). reflexivity.
      * lia.
Qed.
Lemma rows_length div off : forall es ds prev, (length ds <= S (length es))%nat -> length (rows div off es ds prev) = length ds.
Proof.
  induction es as [|e es IH]; intros ds prev LD; (destruct ds as [|d ds]; [reflexivity|]); cbn [rows length] in *.
  - destruct ds; [reflexivity|cbn in LD; lia].
  - rewrite IH by lia. reflexivity.
Qed.
Lemma drop_zeros_is l : Forall (fun x => 0 <= x) l -> exists k, l = repeat 0 k ++ drop_zeros l /\
  match drop_zeros l with [] => True | x :: _ => 0 < x end.
Proof.
  intros F. induction F as [|x l X F IH]; [exists O; split; [reflexivity|exact I]|]. cbn [drop_zeros]. destruct (Z.ltb_spec 0 x).
  - exists O. auto.
  - destruct IH as (k & E & H1). exists (S k). split; [|exact H1]. cbn [repeat app]. rewrite <- E. f_equal. lia.
Qed.
Lemma rev_repeat {A} (a : A) k : rev (repeat a k) = repeat a k.
Proof.
  induction k as [|k IH]; [reflexivity|]. cbn [repeat rev]. rewrite IH. clear. induction k as [|k IH]; [reflexivity|]. cbn [repeat app]. rewrite IH. reflexivity.
Qed.
Lemma shown_is l : Forall (fun x => 0 <= x) l -> exists k, l = shown l ++ repeat 0 k /\ (shown l <> [] -> 0 < last (shown l) 0).
Proof.
  intros F. apply Forall_rev in F. destruct (drop_zeros_is _ F) as (k & E & H). exists k. unfold shown. split.
  - rewrite <- (rev_involutive l) at 1. rewrite E at 1. rewrite rev_app_distr, rev_repeat. reflexivity.
  - intros N. destruct (drop_zeros (rev l)) as [|x r]; [elim N; reflexivity|]. cbn [rev]. rewrite last_last. exact H.
Qed.
Lemma slots_total div off l data : 0 < div -> length data = 56%nat ->
  (forall j, (j <= 55)%nat -> nth j data 0 = count_if (in_range div off j) l) -> total data = zlen l.
Proof.
  intros D L H.
  assert (E : data = map (fun j => count_if (in_range div off j) l) (seq 0 56)).
  { apply (nth_ext _ _ 0 (count_if (in_range div off 0) l)); [rewrite map_length, seq_length; exact L|].
    intros n N. rewrite L in N. rewrite H by lia. rewrite (map_nth (fun j => count_if (in_range div off j) l)), seq_nth by exact N. reflexivity. }
  rewrite E. clear E L H. induction l as [|v l IH].
  - generalize (seq 0 56). induction l as [|j l IH]; [reflexivity|]. cbn [map]. change (?a :: map ?f l) with ([a] ++ map f l).
    rewrite total_app, total_one, IH. reflexivity.
  - destruct (one_slot div off v D) as (j & J & R & U).
    transitivity (total (map (fun k => (if Nat.eqb k j then 1 else 0) + count_if (in_range div off k) l) (seq 0 56))).
    + f_equal. apply map_ext_in. intros k K. apply in_seq in K. rewrite (count_cons _ v l). f_equal.
      destruct (Nat.eqb_spec k j) as [->|X]; [rewrite R; reflexivity|].
      destruct (in_range div off k v) eqn:W; [|reflexivity]. elim X. apply U; [lia|exact W].
    + assert (Sm : forall (f g : nat -> Z) s, total (map (fun k => f k + g k) s) = total (map f s) + total (map g s)).
      { intros f g. induction s as [|x s IHs]; [reflexivity|]. cbn [map]. change (?a :: map ?h s) with ([a] ++ map h s).
        rewrite !total_app, !total_one, IHs. lia. }
      rewrite Sm, IH. replace (zlen (v :: l)) with (1 + zlen l) by (unfold zlen; cbn [length]; lia). f_equal.
      assert (Q : forall n s, total (map (fun k => if Nat.eqb k j then 1 else 0) (seq s n)) = if (s <=? j)%nat && (j <? s + n)%nat then 1 else 0).
      { induction n as [|n IHn]; intros s.
        - cbn [seq map]. destruct (Nat.leb_spec s j), (Nat.ltb_spec j (s + 0)); first [reflexivity|lia].
        - cbn [seq map]. change (?a :: map ?h ?r) with ([a] ++ map h r). rewrite total_app, total_one, IHn.
          destruct (Nat.eqb_spec s j), (Nat.leb_spec (S s) j), (Nat.leb_spec s j), (Nat.ltb_spec j (S s + n)), (Nat.ltb_spec j (s + S n)); cbn [andb]; lia. }
      rewrite Q. replace (j <? 0 + 56)%nat with true by (symmetry; apply Nat.ltb_lt; lia). reflexivity.
Qed.
Lemma printed_rows l h : 0 < h_div h -> counted l h ->
  (forall i r, nth_error (hist_rows h) i = Some r -> r = row_of (h_div h) (h_off h) l i) /\
  total (map snd (hist_rows h)) = zlen l /\ (length (hist_rows h) <= 56)%nat /\ (hist_rows h <> [] -> 0 < snd (last (hist_rows h) (None, None, 0))).
Proof.
  intros D C. pose proof (cd_len _ _ C) as L.
  assert (F : Forall (fun x => 0 <= x) (h_data h)).
  { apply Forall_forall. intros x X. destruct (In_nth _ _ 0 X) as (j & J & <-). rewrite L in J. rewrite (cd_slots _ _ C) by lia. apply count_range. }
  destruct (shown_is _ F) as (k & E & La). set (s := shown (h_data h)) in *.
  assert (Ls : (length s <= 56)%nat) by (rewrite E, app_length in L; lia).
  assert (Lr : length (hist_rows h) = length s) by (unfold hist_rows; apply rows_length; exact Ls).
  assert (R : forall i, (i < length s)%nat -> nth_error (hist_rows h) i = Some (row_of (h_div h) (h_off h) l i) /\ nth i s 0 = snd (row_of (h_div h) (h_off h) l i)).
  { intros i I. assert (Nx : nth i s 0 = count_if (in_range (h_div h) (h_off h) i) l).
    { rewrite <- (cd_slots _ _ C) by lia. rewrite E. rewrite app_nth1 by exact I. reflexivity. }
    split; [|exact Nx]. unfold hist_rows. fold s. rewrite (rows_nth (h_div h) (h_off h) kHistogramBuckets s 0 None i); try reflexivity; try assumption.
    cbn [Nat.add]. rewrite Nx. destruct i; reflexivity. }
  assert (Ms : map snd (hist_rows h) = s).
  { apply (nth_ext _ _ 0 0); [rewrite map_length; exact Lr|]. intros n N. rewrite map_length, Lr in N.
    destruct (R n N) as [A B]. rewrite B. change 0 with (snd (@None Z, @None Z, 0)) at 1. rewrite map_nth.
    rewrite (nth_error_nth _ _ _ A). reflexivity. }
  split; [|split; [|split]].
  - intros i r H. assert (I : (i < length s)%nat) by (rewrite <- Lr; apply nth_error_Some; congruence).
    destruct (R i I) as [A _]. congruence.
  - rewrite Ms. rewrite <- (slots_total _ _ _ _ D L (cd_slots _ _ C)), E, total_app.
    assert (Z0 : forall n, total (repeat 0 n) = 0) by (clear; induction n as [|n IH]; [reflexivity|]; cbn [repeat]; change (0 :: repeat 0 n) with ([0] ++ repeat 0 n); rewrite total_app, IH; reflexivity).
    rewrite Z0. lia.
  - lia.
  - intros N. assert (s <> []) by (intros X; apply N; destruct (hist_rows h); [reflexivity|]; rewrite X in Lr; discriminate).
    specialize (La H). rewrite <- Ms in La. clear - La N. destruct (exists_last N) as (a & b & X). rewrite X in *.
    rewrite map_app in La. cbn [map] in La. rewrite !last_last in *. exact La.
Qed.

(** ** Merging *)
Lemma greatest_app l m a b : greatest l a -> greatest m b -> greatest (l ++ m) (Z.max a b).
Proof.
  intros [A1 A2] [B1 B2]. split.
  - apply in_or_app. destruct (Z.max_spec a b) as [[_ ->]|[_ ->]]; auto.
  - apply Forall_app. split; [eapply Forall_impl; [|exact A2]|eapply Forall_impl; [|exact B2]]; cbn; intros; lia.
Qed.
Lemma least_app l m a b : least l a -> least m b -> least (l ++ m) (Z.min a b).
Proof.
  intros [A1 A2] [B1 B2]. split.
  - apply in_or_app. destruct (Z.min_spec a b) as [[_ ->]|[_ ->]]; auto.
  - apply Forall_app. split; [eapply Forall_impl; [|exact A2]|eapply Forall_impl; [|exact B2]]; cbn; intros; lia.
Qed.
Lemma merged_figures l m a b h : extremes l a -> extremes m b -> hist_merge a b = Ret h ->
  greatest (l ++ m) (ct_max (h_ctr h)) /\ (nonzero l <> [] -> least (nonzero (l ++ m)) (ct_min (h_ctr h))) /\
  ct_realMin (h_ctr h) = ct_realMin (h_ctr a) /\
  (least (l ++ m) (ct_realMin (h_ctr h)) <-> ct_realMin (h_ctr a) <= ct_realMin (h_ctr b)).
Proof.
  intros (A1 & A2 & A3) (B1 & B2 & B3) H. apply merge_parts in H. destruct H as (H & _). apply ctr_merge_parts in H.
  destruct H as (_ & _ & _ & E1 & E2 & E3). split; [rewrite E2; apply greatest_app; assumption|]. split; [|split; [exact E1|]].
  - intros N. destruct A3 as [[A3 _]|A3]; [congruence|]. rewrite nonzero_app, E3. destruct B3 as [[B3 B4]|B3].
    + rewrite B3, app_nil_r, B4. exact A3.
    + pose proof (least_zero _ _ B3) as Z0. apply Z.eqb_neq in Z0. rewrite Z0. apply least_app; assumption.
  - rewrite E1. split.
    + intros [_ F]. apply Forall_app in F. destruct F as [_ F]. rewrite Forall_forall in F. apply F, B1.
    + intros X. rewrite <- (Z.min_l _ _ X) at 1. apply least_app; assumption.
Qed.
Lemma merged_into_new l b h div off : extremes l b -> hist_merge (hist_new div off) b = Ret h ->
  ct_max (h_ctr h) = Z.max 0 (ct_max (h_ctr b)) /\ ct_min (h_ctr h) = Z.min 0 (ct_min (h_ctr b)) /\ ct_realMin (h_ctr h) = 0.
Proof.
  intros _ H. apply merge_parts in H. destruct H as (H & _). apply ctr_merge_parts in H. destruct H as (_ & _ & _ & E1 & E2 & E3).
  cbn [h_ctr hist_new ct_realMin ct_max ct_min ctr_new] in *. split; [exact E2|]. split; [|exact E1]. rewrite E3.
  destruct (Z.eqb_spec (ct_min (h_ctr b)) 0); lia.
Qed.
Lemma recorded_bounded div off l h : 0 < div -> hist_records (hist_new div off) l = Ret h -> Forall (fun v => 0 <= v) l ->
  l <> [] -> bounded l h.
Proof.
  intros D R F N. destruct (recorded_figures div off l h D R) as (_ & E & _). destruct (E N) as ([I A] & [_ B] & _). split.
  - rewrite Forall_forall in F. apply F, I.
  - rewrite Forall_forall in *. intros v V. split; auto.
Qed.
Lemma merges_facts div off ls : 0 < div -> Forall (Forall (fun v => 0 <= v)) ls -> forall hs done g h,
  Forall2 (fun l b => hist_records (hist_new div off) l = Ret b) ls hs ->
  h_div g = div -> h_off g = off -> counted done g -> ct_realMin (h_ctr g) = 0 -> bounded done g -> 0 <= ct_max (h_ctr g) ->
  hist_merges g hs = Ret h -> counted (done ++ concat ls) h /\ bounded (done ++ concat ls) h /\ h_div h = div /\ h_off h = off.
Proof.
  intros D F. induction F as [|l ls V F IH]; intros hs done g h R Gd Go C M B X H.
  - inversion R; subst. cbn in H. injection H as <-. cbn [concat]. rewrite app_nil_r. auto.
  - inversion R as [|? b ? hs' Rb Rs]; subst. cbn [hist_merges] in H. step H. rename x into g'.
    destruct (recorded_figures _ _ _ _ D Rb) as (Cb & Eb & Bd & Bo).
    pose proof (merge_parts _ _ _ H0) as (H1 & _ & D1 & O1). apply ctr_merge_parts in H1.
    destruct H1 as (_ & _ & _ & E1 & E2 & _). cbn [concat]. rewrite app_assoc.
    apply (IH hs' (done ++ l) g' h Rs D1 O1); [| | | |exact H].
    + eapply counted_merge; [| |exact C|exact Cb|exact H0]; congruence.
    + congruence.
    + destruct B as [B1 B2]. split; [lia|]. rewrite E1, E2. apply Forall_app. split.
      * eapply Forall_impl; [|exact B2]. cbn. intros; lia.
      * destruct l as [|v l]; [constructor|]. destruct (Eb ltac:(discriminate)) as (_ & [_ Gb] & _).
        rewrite Forall_forall in *. intros w W. specialize (V w W). specialize (Gb w W). cbn in *. lia.
    + lia.
Qed.
Lemma merged_percentile div off ls hs h p r : 0 < div -> Forall (Forall (fun v => 0 <= v)) ls ->
  Forall2 (fun l b => hist_records (hist_new div off) l = Ret b) ls hs -> hist_merges (hist_new div off) hs = Ret h ->
  concat ls <> [] -> (0 < p)%Q -> (p < 100)%Q -> calcPercentile h p = Ret r ->
  near_percentile (concat ls) 0 (ct_max (h_ctr h)) div off p r.
Proof.
  intros D F R H N P0 P1 Q.
  destruct (merges_facts div off ls D F hs [] (hist_new div off) h R) as (C & B & Hd & Ho); try assumption; try reflexivity.
  - apply counted_new.
  - split; [apply Z.le_refl|constructor].
  - cbn [app] in *. assert (M : ct_realMin (h_ctr h) = 0).
    { clear - H. assert (forall hs g h, hist_merges g hs = Ret h -> ct_realMin (h_ctr h) = ct_realMin (h_ctr g)).
      { clear. induction hs as [|b hs IH]; intros g h H; cbn in H; [congruence|]. step H. rewrite (IH _ _ H).
        apply merge_parts in H0. destruct H0 as (H0 & _). apply ctr_merge_parts in H0. apply H0. }
      rewrite (H0 _ _ _ H). reflexivity. }
    rewrite <- M, <- Hd, <- Ho. apply percentile_near; try assumption. congruence.
Qed.

(** ** Witnesses *)
Lemma merge_unlike : exists a b h, hist_records (hist_new 1 0) [10] = Ret a /\ hist_records (hist_new 1 0) [3; 4] = Ret b /\
  hist_merge a b = Ret h /\ ct_realMin (h_ctr h) = 10 /\ calcPercentile h 0 = Ret (inject_Z 10) /\
  exists r, calcPercentile h 10 = Ret r /\ (inject_Z 8 < r)%Q.
Proof.
  eexists. eexists. eexists. split; [vm_compute; reflexivity|]. split; [vm_compute; reflexivity|]. split; [vm_compute; reflexivity|].
  split; [reflexivity|]. split; [vm_compute; reflexivity|]. eexists. split; [vm_compute; reflexivity|]. vm_compute. reflexivity.
Qed.
(** A value below 0: the interval starts at 0. *)
Lemma negative_unlike : exists h r, hist_records (hist_new 1 0) [-5] = Ret h /\ calcPercentile h 50 = Ret r /\
  ct_max (h_ctr h) = -5 /\ (inject_Z (-5) < r)%Q.
Proof.
  eexists. eexists. split; [vm_compute; reflexivity|]. split; [vm_compute; reflexivity|]. split; vm_compute; reflexivity.
Qed.
(** The smallest value of before a reset. *)
Lemma stale_unlike : exists a b h r, hist_records (hist_new 1 0) [50; 60] = Ret a /\ hist_records (hist_new 1 0) [3; 4] = Ret b /\
  hist_merge (hist_reset a) b = Ret h /\ calcPercentile h 20 = Ret r /\ ct_max (h_ctr h) = 4 /\ (inject_Z 4 < r)%Q.
Proof.
  eexists. eexists. eexists. eexists. split; [vm_compute; reflexivity|]. split; [vm_compute; reflexivity|].
  split; [vm_compute; reflexivity|]. split; [vm_compute; reflexivity|]. split; vm_compute; reflexivity.
Qed.
(** Another scale. *)
Lemma scale_unlike : exists b h r, hist_records (hist_new 100 0) [5000; 5000] = Ret b /\ hist_merge (hist_new 1 0) b = Ret h /\
  calcPercentile h 50 = Ret r /\ (r <= inject_Z 60)%Q /\ In (Some 50, Some 60, 2) (hist_rows h) /\ hist_rows h <> hist_rows b.
Proof.
  eexists. eexists. eexists. split; [vm_compute; reflexivity|]. split; [vm_compute; reflexivity|].
  split; [vm_compute; reflexivity|]. split; [vm_compute; discriminate|].
  split; [vm_compute; repeat (first [left; reflexivity|right])|]. vm_compute. discriminate.
Qed.
Lemma overflow_unlike : hist_records (hist_new 1 0) [- 2 ^ 31; - 2 ^ 31] = Undef.
Proof. vm_compute. reflexivity. Qed.
Lemma deviation_unlike : exists h, hist_records (hist_new 1 0) [2000000000; 1000000000] = Ret h /\ ctr_variance (h_ctr h) = 0%Q /\
  spread [2000000000; 1000000000] = 1000000000000000000.
Proof. eexists. split; [vm_compute; reflexivity|]. split; vm_compute; reflexivity. Qed.
Lemma merge_new_unlike : exists a b h g, hist_records (hist_new 1 0) [-7] = Ret a /\ hist_records (hist_new 1 0) [7] = Ret b /\
  hist_merge (hist_new 1 0) a = Ret h /\ hist_merge (hist_new 1 0) b = Ret g /\ ct_max (h_ctr h) = 0 /\ ct_min (h_ctr g) = 0.
Proof.
  eexists. eexists. eexists. eexists. split; [vm_compute; reflexivity|]. split; [vm_compute; reflexivity|].
  split; [vm_compute; reflexivity|]. split; [vm_compute; reflexivity|]. split; vm_compute; reflexivity.
Qed.
