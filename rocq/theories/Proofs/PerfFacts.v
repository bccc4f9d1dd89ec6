(** The performance figures are those of the recorded calls. *)
From Coq Require Import Lia Permutation Sorted.
From Verif Require Export Spec.PerfSpec.
Open Scope Z_scope.

(** ** Counting *)
Lemma count_app P a b : count_if P (a ++ b) = count_if P a + count_if P b.
Proof. unfold count_if, zlen. rewrite filter_app, app_length. lia. Qed.
Lemma count_one P x : count_if P [x] = if P x then 1 else 0.
Proof. unfold count_if, zlen. cbn. destruct (P x); reflexivity. Qed.
Lemma count_cons P x l : count_if P (x :: l) = (if P x then 1 else 0) + count_if P l.
Proof. exact (eq_trans (count_app P [x] l) (f_equal (fun z => z + _) (count_one P x))). Qed.
Lemma count_nonneg P l : 0 <= count_if P l.
Proof. unfold count_if, zlen. lia. Qed.
Lemma count_ext P Q l : (forall x, In x l -> P x = Q x) -> count_if P l = count_if Q l.
Proof.
  induction l as [|x l IH]; intros H; [reflexivity|].
  rewrite !count_cons, IH by (intros; apply H; right; assumption).
  rewrite (H x) by (left; reflexivity). reflexivity.
Qed.
Lemma count_zero P l : (forall x, In x l -> P x = false) -> count_if P l = 0.
Proof.
  induction l as [|x l IH]; intros H; [reflexivity|].
  rewrite count_cons, IH by (intros; apply H; right; assumption).
  rewrite (H x) by (left; reflexivity). reflexivity.
Qed.
Lemma count_pos P l : 0 < count_if P l <-> exists x, In x l /\ P x = true.
Proof.
  induction l as [|x l IH].
  - split; [intros H; unfold count_if, zlen in H; cbn in H; lia|intros [x [[] _]]].
  - rewrite count_cons. pose proof (count_nonneg P l). split.
    + destruct (P x) eqn:E; intros H1.
      * exists x. split; [left; reflexivity|assumption].
      * assert (H2 : 0 < count_if P l) by lia. apply IH in H2. destruct H2 as [y [H2 H3]].
        exists y. split; [right; assumption|assumption].
    + intros [y [[->|H1] H2]]; [rewrite H2; lia|].
      assert (0 < count_if P l) by (apply IH; exists y; split; assumption).
      destruct (P x); lia.
Qed.
Lemma count_all P l : (forall x, In x l -> P x = true) -> count_if P l = zlen l.
Proof.
  induction l as [|x l IH]; intros H; [reflexivity|].
  rewrite count_cons, IH by (intros; apply H; right; assumption).
  rewrite (H x) by (left; reflexivity). unfold zlen. cbn [length]. lia.
Qed.
Lemma count_le (P Q : Z -> bool) l : (forall x, P x = true -> Q x = true) -> count_if P l <= count_if Q l.
Proof.
  intros H. induction l as [|x l IH]; [reflexivity|]. rewrite !count_cons.
  specialize (H x). destruct (P x); [rewrite H by reflexivity|destruct (Q x)]; lia.
Qed.
Lemma count_split (P Q R : Z -> bool) l : (forall x, In x l -> (if P x then 1 else 0) = (if Q x then 1 else 0) + (if R x then 1 else 0)) ->
  count_if P l = count_if Q l + count_if R l.
Proof.
  intros H. induction l as [|x l IH]; [reflexivity|].
  rewrite !count_cons, IH, (H x) by (try (left; reflexivity); intros; apply H; right; assumption). lia.
Qed.

(** ** The map *)
Definition keys (m : list (Z * Z)) : list Z := map fst m.
Lemma find_bump m k n k' : find_key (bump m k n) k' = find_key m k' + (if k =? k' then n else 0).
Proof.
  unfold find_key. induction m as [|[x v] m IH]; cbn [bump find fst snd].
  - destruct (k =? k'); reflexivity.
  - destruct (x =? k) eqn:E.
    + apply Z.eqb_eq in E. subst. cbn [find fst snd]. destruct (k =? k'); [reflexivity|lia].
    + cbn [find fst]. destruct (x =? k') eqn:E2; [|exact IH].
      cbn [snd]. apply Z.eqb_eq in E2. subst. rewrite (Z.eqb_sym k k'), E. lia.
Qed.
Lemma keys_bump m k n x : In x (keys (bump m k n)) <-> x = k \/ In x (keys m).
Proof.
  unfold keys. induction m as [|[y v] m IH]; cbn [bump map fst In].
  - intuition congruence.
  - destruct (y =? k) eqn:E; cbn [map fst In].
    + apply Z.eqb_eq in E. intuition congruence.
    + rewrite IH. intuition congruence.
Qed.
Lemma nodup_bump m k n : NoDup (keys m) -> NoDup (keys (bump m k n)).
Proof.
  induction m as [|[y v] m IH]; cbn [bump]; intros H.
  - constructor; [intros []|constructor].
  - inversion H; subst. destruct (y =? k) eqn:E; [assumption|].
    constructor; [|apply IH; assumption].
    rewrite keys_bump. apply Z.eqb_neq in E. cbn [fst]. intros [H1|H1]; [congruence|contradiction].
Qed.
Lemma find_absent m k : ~ In k (keys m) -> find_key m k = 0.
Proof.
  unfold find_key, keys. induction m as [|[y v] m IH]; intros H; [reflexivity|].
  cbn [find fst]. destruct (y =? k) eqn:E; [apply Z.eqb_eq in E; exfalso; apply H; left; assumption|].
  apply IH. intros H1. apply H. right. assumption.
Qed.
Definition merged (m q : list (Z * Z)) := fold_left (fun m e => bump m (fst e) (snd e)) q m.
Lemma find_merged q : forall m k, NoDup (keys q) -> find_key (merged m q) k = find_key m k + find_key q k.
Proof.
  unfold merged. induction q as [|[y v] q IH]; intros m k H; cbn [fold_left fst snd].
  - unfold find_key at 3. cbn. lia.
  - inversion H; subst. rewrite IH by assumption. rewrite find_bump.
    unfold find_key at 4. cbn [find fst]. destruct (y =? k) eqn:E; cbn [snd].
    + apply Z.eqb_eq in E. subst. rewrite (find_absent q) by assumption. lia.
    + fold (find_key q k). lia.
Qed.
Lemma keys_merged q : forall m x, In x (keys (merged m q)) <-> In x (keys m) \/ In x (keys q).
Proof.
  unfold merged. induction q as [|[y v] q IH]; intros m x; cbn [fold_left fst snd keys map In].
  - intuition.
  - rewrite IH, keys_bump. unfold keys. intuition.
Qed.
Lemma nodup_merged q : forall m, NoDup (keys m) -> NoDup (keys (merged m q)).
Proof.
  unfold merged. induction q as [|[y v] q IH]; intros m H; cbn [fold_left]; [assumption|].
  apply IH, nodup_bump, H.
Qed.

(** ** The invariant *)
Definition min0 (ty : nat) : Z := match ty with O => INT64_MAX | _ => 0 end.
Record Pinv (ty : nat) (L : list Z) (p : perf) : Prop := {
  pi_count : pf_count p = zlen L;
  pi_sum : pf_sum p = total L;
  pi_max : pf_max p = fold_right Z.max 0 L;
  pi_min : pf_min p = fold_right Z.min (min0 ty) L;
  pi_nodup : NoDup (keys (pf_map p));
  pi_find : forall k, find_key (pf_map p) k = count_if (fun x => x =? k) (millis L);
  pi_keys : forall k, In k (keys (pf_map p)) <-> In k (millis L)
}.
Lemma total_app a b : total (a ++ b) = total a + total b.
Proof. unfold total. induction a as [|x a IH]; cbn; lia. Qed.
Lemma zlen_app {A} (a b : list A) : zlen (a ++ b) = zlen a + zlen b.
Proof. unfold zlen. rewrite app_length. lia. Qed.
Lemma max_app a b : fold_right Z.max 0 (a ++ b) = Z.max (fold_right Z.max 0 a) (fold_right Z.max 0 b).
Proof.
  assert (Hb : 0 <= fold_right Z.max 0 b) by (induction b; cbn; lia).
  induction a as [|x a IH]; cbn; lia.
Qed.
Lemma min_app i a b : fold_right Z.min i (a ++ b) = Z.min (fold_right Z.min i a) (fold_right Z.min i b).
Proof.
  assert (Hb : fold_right Z.min i b <= i) by (induction b; cbn; lia).
  induction a as [|x a IH]; cbn; lia.
Qed.
Lemma millis_app a b : millis (a ++ b) = millis a ++ millis b.
Proof. apply map_app. Qed.

Lemma inv_new ty : Pinv ty [] (perf_new ty).
Proof. split; try reflexivity; try (destruct ty; reflexivity). constructor. Qed.
Lemma inv_add ty L p t : Pinv ty L p -> Pinv ty (L ++ [t]) (perf_add p t).
Proof.
  intros [H1 H2 H3 H4 H5 H6 H7]. split; cbn [perf_add pf_count pf_sum pf_max pf_min pf_map].
  - rewrite zlen_app, H1. reflexivity.
  - rewrite total_app, H2. unfold total at 3. cbn. lia.
  - rewrite max_app, H3. cbn [fold_right].
    assert (0 <= fold_right Z.max 0 L) by (clear; induction L; cbn; lia). lia.
  - rewrite min_app, H4. cbn [fold_right].
    assert (fold_right Z.min (min0 ty) L <= min0 ty) by (clear; induction L; cbn; lia). lia.
  - apply nodup_bump, H5.
  - intros k. rewrite find_bump, H6, millis_app, count_app. unfold millis at 3. cbn [map]. rewrite count_one.
    destruct (_ =? _); reflexivity.
  - intros k. rewrite keys_bump, H7, millis_app, in_app_iff. unfold millis at 3. cbn [map In]. intuition.
Qed.
Lemma inv_merge ty L M p q : Pinv ty L p -> Pinv ty M q -> Pinv ty (L ++ M) (perf_merge p q).
Proof.
  intros [H1 H2 H3 H4 H5 H6 H7] [G1 G2 G3 G4 G5 G6 G7].
  split; cbn [perf_merge pf_count pf_sum pf_max pf_min pf_map].
  - rewrite zlen_app, H1, G1. reflexivity.
  - rewrite total_app, H2, G2. reflexivity.
  - rewrite max_app, H3, G3. reflexivity.
  - rewrite min_app, H4, G4. reflexivity.
  - apply nodup_merged, H5.
  - intros k. rewrite (find_merged (pf_map q) (pf_map p)) by exact G5.
    rewrite H6, G6, millis_app, count_app. reflexivity.
  - intros k. rewrite (keys_merged (pf_map q) (pf_map p)), H7, G7, millis_app, in_app_iff. reflexivity.
Qed.

(** ** A number of reports *)
Lemma set_cases {A} (l : list A) : forall i x j y, nth_error (set_nth l i x) j = Some y ->
  (i = j /\ y = x) \/ (i <> j /\ nth_error l j = Some y).
Proof.
  induction l as [|z l IH]; intros [|i] x [|j] y H; cbn in *; try discriminate; auto.
  - left. injection H as <-. auto.
  - apply IH in H. destruct H as [[-> ->]|[? ?]]; [left; auto|right; auto].
Qed.
Definition Rinv (ops : list pop) (s : list preport) : Prop :=
  forall i r, nth_error s i = Some r -> length r = kNumTypes /\
  forall ty p, nth_error r ty = Some p -> Pinv ty (recorded ops i ty) p.
Lemma new_length : length preport_new = kNumTypes.
Proof. reflexivity. Qed.
Lemma nth_seq n : forall a i, (i < n)%nat -> nth_error (seq a n) i = Some (a + i)%nat.
Proof.
  induction n as [|n IH]; intros a i H; [lia|]. destruct i; cbn; [f_equal; lia|].
  rewrite IH by lia. f_equal. lia.
Qed.
Lemma rinv_init n : Rinv [] (repeat preport_new n).
Proof.
  intros i r H. apply nth_error_In, repeat_spec in H. subst. split; [exact new_length|].
  intros ty p H. unfold preport_new in H.
  assert (Hl : (ty < kNumTypes)%nat).
  { apply nth_error_Some_lt in H || (assert (E : nth_error (map perf_new (seq 0 kNumTypes)) ty <> None) by congruence;
    apply nth_error_Some in E; rewrite map_length, seq_length in E; exact E). }
  rewrite (map_nth_error _ _ _ (nth_seq _ 0 ty Hl)) in H. injection H as <-. apply inv_new.
Qed.
Lemma merge_length a : forall b, length (preport_merge a b) = length a.
Proof. induction a as [|p a IH]; intros [|q b]; cbn; try reflexivity. rewrite IH. reflexivity. Qed.
Lemma merge_nth a : forall b ty p, length a = length b -> nth_error (preport_merge a b) ty = Some p ->
  exists x y, nth_error a ty = Some x /\ nth_error b ty = Some y /\ p = perf_merge x y.
Proof.
  induction a as [|x a IH]; intros [|y b] ty p Hl H; cbn in *; try discriminate.
  - destruct ty; discriminate.
  - destruct ty as [|ty]; cbn in *.
    + injection H as <-. exists x, y. auto.
    + apply IH; [lia|assumption].
Qed.
Lemma set_length {A} (l : list A) : forall i x, length (set_nth l i x) = length l.
Proof. induction l as [|y l IH]; intros [|i] x; cbn; try reflexivity. rewrite IH. reflexivity. Qed.
Lemma rinv_step net ops s o s' : Rinv ops s -> pop_step net s o = Ret s' -> Rinv (o :: ops) s'.
Proof.
  intros H E. destruct o as [i ty t|i j]; cbn [pop_step] in E.
  - destruct (nth_error s i) as [r|] eqn:Ei; [|discriminate].
    unfold addPerfStat in E. destruct (_ || _); [discriminate|].
    destruct (nth_error r ty) as [p|] eqn:Et; [|discriminate]. cbn [obind] in E. injection E as <-.
    intros k r' Hk. apply set_cases in Hk.
    destruct (H _ _ Ei) as [Hl Hr].
    destruct Hk as [[-> ->]|[Hne Hk]].
    + split; [rewrite set_length; exact Hl|].
      intros ty' p' Hp. apply set_cases in Hp. cbn [recorded]. rewrite Nat.eqb_refl. cbn [andb].
      destruct Hp as [[-> ->]|[Hne Hp]].
      * rewrite Nat.eqb_refl. apply inv_add, Hr, Et.
      * replace (Nat.eqb ty' ty) with false; [apply Hr, Hp|symmetry; apply Nat.eqb_neq; congruence].
    + destruct (H _ _ Hk) as [Hl2 Hr2]. split; [exact Hl2|]. intros ty' p' Hp. cbn [recorded].
      replace (Nat.eqb k i) with false by (symmetry; apply Nat.eqb_neq; congruence).
      cbn [andb]. apply Hr2, Hp.
  - destruct (Nat.eqb i j); [discriminate|]. destruct (nth_error s i) as [a|] eqn:Ei; [|discriminate].
    destruct (nth_error s j) as [b|] eqn:Ej; [|discriminate]. injection E as <-.
    destruct (H _ _ Ei) as [Hl Hr]. destruct (H _ _ Ej) as [Hl2 Hr2].
    intros k r' Hk. apply set_cases in Hk. destruct Hk as [[-> ->]|[Hne Hk]].
    + split; [rewrite merge_length; exact Hl|]. intros ty p Hp. apply merge_nth in Hp; [|congruence].
      destruct Hp as (x & y & Hx & Hy & ->). cbn [recorded]. rewrite Nat.eqb_refl.
      apply inv_merge; [apply Hr, Hx|apply Hr2, Hy].
    + destruct (H _ _ Hk) as [Hl3 Hr3]. split; [exact Hl3|]. intros ty p Hp. cbn [recorded].
      replace (Nat.eqb k i) with false by (symmetry; apply Nat.eqb_neq; congruence).
      apply Hr3, Hp.
Qed.
Lemma rinv_run net l : forall ops s s', Rinv ops s -> pop_run net s l = Ret s' -> Rinv (rev l ++ ops) s'.
Proof.
  induction l as [|o l IH]; intros ops s s' H E; cbn [pop_run rev app] in *.
  - injection E as <-. exact H.
  - destruct (pop_step net s o) as [s1| |] eqn:E1; cbn [obind] in E; try discriminate.
    rewrite <- app_assoc. cbn [app]. apply (IH (o :: ops) s1); [|exact E]. exact (rinv_step _ _ _ _ _ H E1).
Qed.
Lemma run_inv net n l s i r ty p : pop_run net (repeat preport_new n) l = Ret s ->
  nth_error s i = Some r -> nth_error r ty = Some p -> Pinv ty (recorded (rev l) i ty) p.
Proof.
  intros H Hi Ht. pose proof (rinv_run _ _ _ _ _ (rinv_init n) H) as R. rewrite app_nil_r in R.
  exact (proj2 (R _ _ Hi) _ _ Ht).
Qed.

(** ** The figures *)
Lemma max_greatest L : Forall (fun t => 0 <= t) L -> L <> [] -> greatest L (fold_right Z.max 0 L).
Proof.
  intros H Hne. induction L as [|x L IH]; [congruence|]. inversion H; subst. cbn [fold_right].
  destruct L as [|y L]; [cbn; rewrite Z.max_l by lia; split; [left; reflexivity|constructor; [lia|constructor]]|].
  destruct IH as [I1 I2]; [assumption|discriminate|]. set (m := fold_right Z.max 0 (y :: L)) in *.
  split.
  - destruct (Z.max_spec x m) as [[_ ->]|[_ ->]]; [right; exact I1|left; reflexivity].
  - constructor; [lia|]. eapply Forall_impl; [|exact I2]. cbn. intros. lia.
Qed.
Lemma min_least i L : Forall (fun t => t <= i) L -> L <> [] -> least L (fold_right Z.min i L).
Proof.
  intros H Hne. induction L as [|x L IH]; [congruence|]. inversion H; subst. cbn [fold_right].
  destruct L as [|y L]; [cbn; rewrite Z.min_l by lia; split; [left; reflexivity|constructor; [lia|constructor]]|].
  destruct IH as [I1 I2]; [assumption|discriminate|]. set (m := fold_right Z.min i (y :: L)) in *.
  split.
  - destruct (Z.min_spec x m) as [[_ ->]|[_ ->]]; [left; reflexivity|right; exact I1].
  - constructor; [lia|]. eapply Forall_impl; [|exact I2]. cbn. intros. lia.
Qed.
Lemma min_zero L : Forall (fun t => 0 <= t) L -> fold_right Z.min 0 L = 0.
Proof. induction 1; cbn; lia. Qed.

Lemma figures net n l s i r ty p : pop_run net (repeat preport_new n) l = Ret s ->
  nth_error s i = Some r -> nth_error r ty = Some p -> let L := recorded (rev l) i ty in
  pf_count p = zlen L /\ pf_sum p = total L /\
  (Forall (fun t => 0 <= t) L -> L <> [] -> greatest L (pf_max p)) /\
  (ty = SOCKET_READ -> Forall (fun t => t <= INT64_MAX) L -> L <> [] -> least L (pf_min p)).
Proof.
  intros H Hi Ht L. pose proof (run_inv _ _ _ _ _ _ _ _ H Hi Ht) as I. fold L in I.
  split; [apply I|]. split; [apply I|]. split.
  - rewrite (pi_max _ _ _ I). apply max_greatest.
  - intros ->. rewrite (pi_min _ _ _ I). cbn [min0]. apply min_least.
Qed.
Lemma min_wrong net n l s i r ty p : pop_run net (repeat preport_new n) l = Ret s ->
  nth_error s i = Some r -> nth_error r ty = Some p -> ty <> SOCKET_READ ->
  Forall (fun t => 0 <= t) (recorded (rev l) i ty) -> pf_min p = 0.
Proof.
  intros H Hi Ht Hty HL. pose proof (run_inv _ _ _ _ _ _ _ _ H Hi Ht) as I.
  rewrite (pi_min _ _ _ I). destruct ty; [contradiction Hty; reflexivity|]. apply min_zero, HL.
Qed.

(** ** Printing *)
Lemma insert_perm k l : Permutation (k :: l) (insert_key k l).
Proof.
  induction l as [|x l IH]; cbn; [reflexivity|]. destruct (k <=? x); [reflexivity|].
  rewrite perm_swap, IH. reflexivity.
Qed.
Lemma sort_perm l : Permutation l (sort_keys l).
Proof.
  unfold sort_keys. induction l as [|x l IH]; cbn; [reflexivity|]. rewrite <- insert_perm, <- IH. reflexivity.
Qed.
Lemma insert_sorted k l : StronglySorted Z.le l -> StronglySorted Z.le (insert_key k l).
Proof.
  induction l as [|x l IH]; cbn; intros H; [constructor; [assumption|constructor]|].
  inversion H; subst. destruct (k <=? x) eqn:E.
  - apply Z.leb_le in E. constructor; [assumption|]. constructor; [assumption|].
    eapply Forall_impl; [|eassumption]. cbn. intros. lia.
  - apply Z.leb_gt in E. constructor; [apply IH; assumption|].
    rewrite <- insert_perm. constructor; [lia|assumption].
Qed.
Lemma sort_sorted l : StronglySorted Z.le (sort_keys l).
Proof. unfold sort_keys. induction l; cbn; [constructor|apply insert_sorted; assumption]. Qed.
Lemma sort_strict l : NoDup l -> StronglySorted Z.lt (sort_keys l).
Proof.
  intros H. pose proof (sort_sorted l) as S. assert (N : NoDup (sort_keys l)) by (rewrite <- (sort_perm l); exact H).
  revert S N. generalize (sort_keys l). clear.
  induction l as [|x l IH]; intros S N; [constructor|]. inversion S; subst. inversion N; subst.
  constructor; [apply IH; assumption|]. rewrite Forall_forall in *. intros y Hy.
  specialize (H2 y Hy). assert (x <> y) by (intros ->; contradiction). lia.
Qed.

Section Printing.
Variables (m : list (Z * Z)) (M : list Z).
Hypothesis Hm : forall k, find_key m k = count_if (fun x => x =? k) M.
Definition below (v : Z) : Z := count_if (fun x => x <? v) M.

(** What a rank is printed for. *)
Definition hits (rank : Z) (l : list Z) : list Z :=
  filter (fun t => (below t <? rank) && (rank <=? below t + count_if (fun x => x =? t) M)) l.
Definition slot (v : Z) : nat := length (filter (fun e => e <=? v) kHistogramBuckets).

Lemma ends_sorted : StronglySorted Z.lt kHistogramBuckets.
Proof. unfold kHistogramBuckets. repeat (constructor; [|repeat constructor; reflexivity]). constructor. Qed.
Lemma advance_from e : forall i time ends' i', StronglySorted Z.lt e -> advance e i time = (ends', i') ->
  exists done, e = done ++ ends' /\ Forall (fun x => x <= time) done /\ Forall (fun x => time < x) ends' /\
  i' = (i + length done)%nat.
Proof.
  induction e as [|x e IH]; intros i time ends' i' S E; cbn [advance] in E.
  - injection E as <- <-. exists []. repeat split; try constructor. cbn. lia.
  - inversion S; subst. destruct (x <=? time) eqn:Ex.
    + apply IH in E; [|assumption]. destruct E as (done & -> & F1 & F2 & ->).
      exists (x :: done). repeat split; [constructor; [apply Z.leb_le, Ex|assumption]|assumption|cbn; lia].
    + injection E as <- <-. exists []. apply Z.leb_gt in Ex. repeat split; [constructor| |cbn; lia].
      constructor; [assumption|]. eapply Forall_impl; [|eassumption]. cbn. intros. lia.
Qed.
Lemma filter_none {A} (f : A -> bool) l : Forall (fun x => f x = false) l -> filter f l = [].
Proof. induction 1 as [|x l H _ IH]; cbn; [reflexivity|]. rewrite H. exact IH. Qed.
Lemma filter_every {A} (f : A -> bool) l : Forall (fun x => f x = true) l -> filter f l = l.
Proof. induction 1 as [|x l H _ IH]; cbn; [reflexivity|]. rewrite H, IH. reflexivity. Qed.
(** The state of the scan: [done] ends were passed, all of them not above any time to come. *)
Lemma advance_slot done ends time ends' i' :
  kHistogramBuckets = done ++ ends -> Forall (fun x => x <= time) done ->
  advance ends (length done) time = (ends', i') ->
  i' = slot time /\ exists done', kHistogramBuckets = done' ++ ends' /\ Forall (fun x => x <= time) done' /\
  length done' = i'.
Proof.
  intros HK HD HA. assert (S : StronglySorted Z.lt ends).
  { pose proof ends_sorted as S. rewrite HK in S. clear -S. induction done; [exact S|]. inversion S; subst. auto. }
  apply advance_from in HA; [|exact S]. destruct HA as (more & -> & F1 & F2 & ->).
  assert (HK2 : kHistogramBuckets = (done ++ more) ++ ends') by (rewrite <- app_assoc; exact HK).
  assert (HD2 : Forall (fun x => x <= time) (done ++ more)) by (apply Forall_app; split; assumption).
  split.
  - unfold slot. rewrite HK2, filter_app.
    rewrite (filter_every _ (done ++ more)), (filter_none _ ends'), app_nil_r, app_length; [reflexivity| |].
    + eapply Forall_impl; [|exact F2]. cbn. intros a Ha. apply Z.leb_gt. exact Ha.
    + eapply Forall_impl; [|exact HD2]. cbn. intros a Ha. apply Z.leb_le. exact Ha.
  - exists (done ++ more). repeat split; [exact HK2|exact HD2|apply app_length].
Qed.

Definition fill (l : list Z) (b : list Z) : list Z :=
  fold_left (fun b t => add_nth b (slot t) (count_if (fun x => x =? t) M)) l b.
Lemma scan_spec r50 r95 r99 : forall times running ends done o,
  kHistogramBuckets = done ++ ends -> StronglySorted Z.lt times -> Forall (fun t => Forall (fun x => x <= t) done) times ->
  (match times with [] => True | t :: _ => running = below t end) ->
  (forall x, In x M -> (exists t, In t times /\ t <= x) -> In x times) ->
  Forall (fun t => 0 <= t) times ->
  scan_times m r50 r95 r99 times running ends (length done) o =
  Ret {| po_p50 := po_p50 o ++ hits r50 times; po_p95 := po_p95 o ++ hits r95 times;
         po_p99 := po_p99 o ++ hits r99 times; po_buckets := fill times (po_buckets o) |}.
Proof.
  induction times as [|t times IH]; intros running ends done o HK HS HD HR HM HP; cbn [scan_times].
  - unfold hits, fill. cbn. rewrite !app_nil_r. destruct o; reflexivity.
  - inversion HS; subst. inversion HD; subst. inversion HP; subst.
    replace (t <? 0) with false by (symmetry; apply Z.ltb_ge; assumption).
    rewrite Hm. destruct (advance ends (length done) t) as [ends' i'] eqn:EA.
    destruct (advance_slot _ _ _ _ _ HK H3 EA) as (-> & done' & HK' & HD' & HL).
    rewrite <- HL. rewrite IH with (done := done'); cbn [po_p50 po_p95 po_p99 po_buckets].
    + unfold hits, fill. cbn [filter fold_left]. rewrite HL.
      repeat match goal with |- context [if ?c then _ else _] => destruct c end;
      rewrite <- ?app_assoc; reflexivity.
    + exact HK'.
    + assumption.
    + rewrite Forall_forall in H2 |- *. intros u Hu. specialize (H2 u Hu).
      eapply Forall_impl; [|exact HD']. cbn. intros. lia.
    + destruct times as [|u times]; [exact I|]. inversion H2; subst. unfold below.
      symmetry. apply count_split. intros x Hx.
      assert (Hc : x < t \/ x = t \/ u <= x).
      { destruct (Z.lt_ge_cases x t) as [?|Hge]; [left; assumption|].
        destruct (HM x Hx) as [->|[->|Hin]]; [exists t; split; [left; reflexivity|lia]|lia|lia|].
        inversion H1; subst. rewrite Forall_forall in H10. specialize (H10 x Hin). lia. }
      destruct (x <? u) eqn:E1, (x <? t) eqn:E2, (x =? t) eqn:E3; lia.
    + intros x Hx [v [Hv Hle]]. destruct (HM x Hx) as [->|Hin].
      * exists v. split; [right; assumption|assumption].
      * rewrite Forall_forall in H2. specialize (H2 v Hv). lia.
      * exact Hin.
    + assumption.
Qed.

(** ** Ranks *)
Lemma below_le a b : a <= b -> below a <= below b.
Proof. intros H. apply count_le. intros x Hx. apply Z.ltb_lt in Hx. apply Z.ltb_lt. lia. Qed.
Lemma below_eq t : below t + count_if (fun x => x =? t) M = count_if (fun x => x <=? t) M.
Proof.
  symmetry. apply count_split. intros x _.
  destruct (x <=? t) eqn:E1, (x <? t) eqn:E2, (x =? t) eqn:E3; lia.
Qed.
Lemma hits_none r l : (forall t, In t l -> r <= below t) -> hits r l = [].
Proof.
  intros H. apply filter_none. rewrite Forall_forall. intros t Ht. specialize (H t Ht).
  apply Bool.andb_false_iff. left. apply Z.ltb_ge. exact H.
Qed.
Lemma hits_one r : forall ts, StronglySorted Z.lt ts ->
  (forall x, In x M -> (exists t, In t ts /\ t <= x) -> In x ts) ->
  (match ts with [] => zlen M < r | t :: _ => below t < r end) -> r <= zlen M ->
  exists v, hits r ts = [v] /\ ranked M r v.
Proof.
  induction ts as [|t ts IH]; intros HS HM Hlo Hhi; [lia|]. inversion HS; subst.
  unfold hits. cbn [filter]. fold (hits r ts). replace (below t <? r) with true by (symmetry; apply Z.ltb_lt; exact Hlo).
  cbn [andb]. rewrite below_eq. destruct (r <=? _) eqn:E.
  - apply Z.leb_le in E. exists t. split; [|split; assumption]. f_equal. apply hits_none.
    intros u Hu. rewrite Forall_forall in H2. specialize (H2 u Hu). unfold below.
    etransitivity; [exact E|]. apply count_le. intros x Hx. apply Z.leb_le in Hx. apply Z.ltb_lt. lia.
  - apply Z.leb_gt in E. apply IH; [assumption| |destruct ts as [|u ts]| assumption].
    + intros x Hx [v [Hv Hle]]. destruct (HM x Hx) as [->|Hin]; [exists v; split; [right; assumption|assumption]| |exact Hin].
      rewrite Forall_forall in H2. specialize (H2 v Hv). lia.
    + rewrite count_all in E; [exact E|]. intros x Hx. apply Z.leb_le.
      destruct (Z.le_gt_cases x t) as [?|Hgt]; [assumption|].
      destruct (HM x Hx) as [->|[]]; [exists t; split; [left; reflexivity|lia]|lia].
    + eapply Z.le_lt_trans; [|exact E]. unfold below.
      assert (Hc : count_if (fun x => x <? u) M = count_if (fun x => x <=? t) M); [|lia].
      apply count_ext. intros x Hx. inversion H2; subst.
      assert (x <= t \/ u <= x).
      { destruct (Z.le_gt_cases x t) as [?|Hgt]; [left; assumption|right].
        destruct (HM x Hx) as [->|[->|Hin]]; [exists t; split; [left; reflexivity|lia]|lia|lia|].
        apply StronglySorted_inv in H1. destruct H1 as [_ H1]. rewrite Forall_forall in H1. specialize (H1 x Hin). lia. }
      destruct (x <? u) eqn:E1, (x <=? t) eqn:E2; lia.
Qed.

(** ** Buckets *)
Local Opaque kHistogramBuckets.
Lemma add_nth_length b : forall i n, length (add_nth b i n) = length b.
Proof. induction b as [|x b IH]; intros [|i] n; cbn; auto. Qed.
Lemma add_nth_at b : forall i n j, (i < length b)%nat -> nth j (add_nth b i n) 0 = nth j b 0 + (if Nat.eqb i j then n else 0).
Proof.
  induction b as [|x b IH]; intros [|i] n [|j] H; cbn in *; try lia. apply IH. lia.
Qed.
Lemma slot_bound v : (slot v <= length kHistogramBuckets)%nat.
Proof. unfold slot. generalize kHistogramBuckets. induction l as [|e l IH]; cbn; [lia|]. destruct (e <=? v); cbn; lia. Qed.
Lemma fill_length l : forall b, length (fill l b) = length b.
Proof. unfold fill. induction l as [|t l IH]; intros b; cbn [fold_left]; [reflexivity|]. rewrite IH. apply add_nth_length. Qed.
Lemma fill_at l : forall b j, NoDup l -> length b = S (length kHistogramBuckets) ->
  nth j (fill l b) 0 = nth j b 0 + count_if (fun x => Nat.eqb (slot x) j && existsb (Z.eqb x) l) M.
Proof.
  induction l as [|t l IH]; intros b j HN Hb.
  - unfold fill. cbn [fold_left existsb]. rewrite (count_zero _ M); [lia|]. intros. apply Bool.andb_false_r.
  - inversion HN; subst. unfold fill in *. cbn [fold_left]. rewrite IH by (try assumption; rewrite add_nth_length; exact Hb).
    rewrite add_nth_at by (rewrite Hb; pose proof (slot_bound t); lia).
    rewrite <- Z.add_assoc. f_equal. symmetry.
    destruct (Nat.eqb (slot t) j) eqn:Es.
    + apply count_split. intros x _. cbn [existsb]. destruct (x =? t) eqn:E; cbn [orb].
      * apply Z.eqb_eq in E. subst. rewrite Es. cbn [andb].
        destruct (existsb (Z.eqb t) l) eqn:Ee; [|reflexivity].
        apply existsb_exists in Ee. destruct Ee as [y [Hy Hey]]. apply Z.eqb_eq in Hey. subst. contradiction.
      * lia.
    + rewrite Z.add_0_l. apply count_ext. intros x _. cbn [existsb]. destruct (x =? t) eqn:E; [|reflexivity].
      apply Z.eqb_eq in E. subst. rewrite Es. reflexivity.
Qed.
End Printing.

Lemma sorted_nodup l : StronglySorted Z.lt l -> NoDup l.
Proof.
  induction 1 as [|x l _ IH H]; constructor; [|exact IH]. intros Hx. rewrite Forall_forall in H. specialize (H x Hx). lia.
Qed.
Lemma slot_in l : forall v, StronglySorted Z.lt l -> forall j, (j <= length l)%nat ->
  (length (filter (fun e => (e <=? v)%Z) l) = j <->
   match j with O => True | S k => nth k l 0 <= v end /\ match nth_error l j with Some e => v < e | None => True end).
Proof.
  induction l as [|x l IH]; intros v S j Hj; cbn [length] in Hj.
  - assert (j = 0)%nat by lia. subst. cbn. tauto.
  - inversion S; subst. cbn [filter]. destruct (x <=? v) eqn:E.
    + apply Z.leb_le in E. destruct j as [|j]; cbn [length nth_error].
      * split; [discriminate|]. lia.
      * specialize (IH v H1 j ltac:(lia)). split.
        -- intros H. injection H as H. apply IH in H. destruct H as [Ha Hb]. split; [|exact Hb].
           destruct j; cbn; [exact E|exact Ha].
        -- intros [Ha Hb]. f_equal. apply IH. split; [|exact Hb]. destruct j; [exact I|]. cbn in Ha. exact Ha.
    + apply Z.leb_gt in E. rewrite filter_none.
      2:{ eapply Forall_impl; [|exact H2]. cbn. intros a Ha. apply Z.leb_gt. lia. }
      cbn [length]. destruct j as [|j]; cbn [nth_error].
      * split; auto.
      * split; [discriminate|]. intros [Ha _]. exfalso. destruct j as [|j]; cbn in Ha; [lia|].
        assert (Hin : In (nth j l 0) l) by (apply nth_In; lia).
        rewrite Forall_forall in H2. specialize (H2 _ Hin). lia.
Qed.
Lemma slot_spec v j : 0 <= v -> (j <= length kHistogramBuckets)%nat ->
  Nat.eqb (slot v) j = in_slot kHistogramBuckets j v.
Proof.
  intros Hv Hj. pose proof (slot_in _ v ends_sorted j Hj) as H. unfold slot, in_slot.
  destruct (Nat.eqb _ j) eqn:E.
  - apply Nat.eqb_eq in E. apply H in E. destruct E as [Ha Hb]. symmetry. apply andb_true_intro. split.
    + destruct j; apply Z.leb_le; assumption.
    + destruct (nth_error _ _); [apply Z.ltb_lt; assumption|reflexivity].
  - apply Nat.eqb_neq in E. symmetry. apply Bool.not_true_is_false. intros Ht. apply E, H.
    apply andb_prop in Ht. destruct Ht as [Ha Hb]. split.
    + destruct j; [exact I|]. apply Z.leb_le, Ha.
    + destruct (nth_error _ _); [apply Z.ltb_lt, Hb|exact I].
Qed.

Lemma rank_range c p : 0 <= c -> 0 <= p <= 100 -> 0 <= rank c p <= c.
Proof.
  intros Hc Hp. unfold rank. rewrite Z.quot_div_nonneg by nia. split; [apply Z.div_pos; nia|].
  apply Z.div_le_upper_bound; nia.
Qed.
Lemma count_millis L : zlen (millis L) = zlen L.
Proof. unfold zlen, millis. rewrite map_length. reflexivity. Qed.

Lemma rank_position L pc : 0 <= pc -> rank (zlen L) pc = position pc (millis L).
Proof. intros H. unfold rank, position. rewrite count_millis, Z.quot_div_nonneg; [reflexivity| |lia]. unfold zlen. nia. Qed.

Lemma printed ty L p : Pinv ty L p -> Forall (fun t => -1000 < t) L -> L <> [] ->
  exists o, perf_print p = Ret (Some {| pl_count := zlen L; pl_sum := total L; pl_min := pf_min p; pl_max := pf_max p; pl_out := o |}) /\
  percentile 50 (millis L) (po_p50 o) /\ percentile 95 (millis L) (po_p95 o) /\
  percentile 99 (millis L) (po_p99 o) /\
  length (po_buckets o) = S (length kHistogramBuckets) /\
  forall j, (j <= length kHistogramBuckets)%nat ->
    nth j (po_buckets o) 0 = count_if (in_slot kHistogramBuckets j) (millis L).
Proof.
  intros I HL Hne. assert (Hz : 0 < zlen L) by (destruct L; [congruence|unfold zlen; cbn [length]; lia]).
  unfold perf_print. rewrite (pi_count _ _ _ I). replace (zlen L =? 0) with false by (symmetry; apply Z.eqb_neq; lia).
  set (ts := sort_keys (map fst (pf_map p))).
  assert (HS : StronglySorted Z.lt ts) by (apply sort_strict, (pi_nodup _ _ _ I)).
  assert (Hin : forall x, In x ts <-> In x (millis L)).
  { intros x. rewrite <- (pi_keys _ _ _ I). unfold ts, keys.
    split; apply Permutation_in; [symmetry|]; apply sort_perm. }
  assert (Hnn : Forall (fun x => 0 <= x) (millis L)).
  { unfold millis. rewrite Forall_map. eapply Forall_impl; [|exact HL]. cbn. intros a Ha.
    pose proof (Z.quot_rem' a 1000). destruct (Z.le_gt_cases 0 a).
    - apply Z.quot_pos; lia.
    - assert (Z.quot (- a) 1000 = 0) by (apply Z.quot_small; lia). rewrite Z.quot_opp_l in H1 by lia. lia. }
  assert (Hpos : Forall (fun t => 0 <= t) ts).
  { rewrite Forall_forall in *. intros x Hx. apply Hnn, Hin, Hx. }
  assert (HM : forall x, In x (millis L) -> (exists t, In t ts /\ t <= x) -> In x ts).
  { intros x Hx _. apply Hin, Hx. }
  assert (H0 : match ts with [] => False | t :: _ => below (millis L) t = 0 end).
  { destruct ts as [|t ts'] eqn:Et.
    - destruct L as [|x L']; [congruence|]. apply (Hin (Z.quot x 1000)). left. reflexivity.
    - apply count_zero. intros x Hx. apply Z.ltb_ge. apply Hin in Hx.
      inversion HS; subst. destruct Hx as [->|Hx]; [lia|]. rewrite Forall_forall in H2. specialize (H2 x Hx). lia. }
  rewrite (scan_spec (pf_map p) (millis L) (pi_find _ _ _ I) _ _ _ ts 0 kHistogramBuckets []);
    [|reflexivity|exact HS| |destruct ts; [exact Logic.I|symmetry; exact H0]|exact HM|exact Hpos].
  2:{ rewrite Forall_forall. intros. constructor. }
  cbn [obind]. eexists. split; [rewrite (pi_sum _ _ _ I); reflexivity|].
  cbn [po_p50 po_p95 po_p99 po_buckets app].
  assert (HP : forall pc, 0 <= pc <= 100 -> percentile pc (millis L) (hits (millis L) (rank (zlen L) pc) ts)).
  { intros pc Hpc. unfold percentile. rewrite <- rank_position by lia. pose proof (rank_range (zlen L) pc ltac:(lia) Hpc) as Hr.
    destruct (Z.eq_dec (rank (zlen L) pc) 0) as [E|E].
    - left. split; [exact E|]. rewrite E. apply hits_none. intros. apply count_nonneg.
    - right. apply hits_one; [exact HS|exact HM| |rewrite count_millis; lia].
      destruct ts; [contradiction|]. rewrite H0. lia. }
  split; [apply HP; lia|]. split; [apply HP; lia|]. split; [apply HP; lia|].
  split; [rewrite fill_length, repeat_length; reflexivity|].
  intros j Hj. rewrite fill_at; [|apply sorted_nodup, HS|rewrite repeat_length; reflexivity].
  rewrite nth_repeat, Z.add_0_l. apply count_ext. intros x Hx. rewrite Forall_forall in Hnn.
  rewrite slot_spec by (try assumption; apply Hnn, Hx).
  replace (existsb (Z.eqb x) ts) with true; [apply Bool.andb_true_r|].
  symmetry. apply existsb_exists. exists x. split; [apply Hin, Hx|apply Z.eqb_refl].
Qed.

(** Printing stops the process if a call took -1 ms or less. *)
Lemma quot_neg a : a <= -1000 -> Z.quot a 1000 < 0.
Proof.
  intros H. assert (E : Z.quot (- a) 1000 = - Z.quot a 1000) by (apply Z.quot_opp_l; lia).
  assert (1 <= Z.quot (- a) 1000); [|lia]. rewrite Z.quot_div_nonneg by lia. apply Z.div_le_lower_bound; lia.
Qed.
Lemma print_crash ty L p t : Pinv ty L p -> In t L -> t <= -1000 -> perf_print p = Crash.
Proof.
  intros I Ht Hneg. unfold perf_print. rewrite (pi_count _ _ _ I).
  replace (zlen L =? 0) with false; [|symmetry; apply Z.eqb_neq; destruct L; [contradiction|unfold zlen; cbn [length]; lia]].
  pose proof (sort_sorted (map fst (pf_map p))) as HS.
  assert (Hin : In (Z.quot t 1000) (sort_keys (map fst (pf_map p)))).
  { apply (Permutation_in _ (sort_perm _)). apply (pi_keys _ _ _ I). apply (in_map (fun t => Z.quot t 1000)), Ht. }
  apply quot_neg in Hneg. destruct (sort_keys (map fst (pf_map p))) as [|k ts]; [contradiction|].
  cbn [scan_times]. replace (k <? 0) with true; [reflexivity|]. symmetry. apply Z.ltb_lt.
  destruct Hin as [->|Hin]; [exact Hneg|]. apply StronglySorted_inv in HS. destruct HS as [_ HS].
  rewrite Forall_forall in HS. specialize (HS _ Hin). lia.
Qed.
Lemma print_none ty L p : Pinv ty L p -> (perf_print p = Ret None <-> L = []).
Proof.
  intros I. unfold perf_print. rewrite (pi_count _ _ _ I). split.
  - destruct L as [|x L]; [reflexivity|]. replace (zlen (x :: L) =? 0) with false by (symmetry; apply Z.eqb_neq; unfold zlen; cbn [length]; lia).
    destruct (scan_times _ _ _ _ _ _ _ _ _); cbn [obind]; discriminate.
  - intros ->. reflexivity.
Qed.

Lemma report_printed net n l s i r ty p : pop_run net (repeat preport_new n) l = Ret s ->
  nth_error s i = Some r -> nth_error r ty = Some p -> let L := recorded (rev l) i ty in
  (perf_print p = Ret None <-> L = []) /\
  (perf_print p = Crash <-> Exists (fun t => t <= -1000) L) /\
  (Forall (fun t => -1000 < t) L -> L <> [] ->
   exists o, perf_print p = Ret (Some {| pl_count := zlen L; pl_sum := total L; pl_min := pf_min p; pl_max := pf_max p; pl_out := o |}) /\
   percentile 50 (millis L) (po_p50 o) /\ percentile 95 (millis L) (po_p95 o) /\
   percentile 99 (millis L) (po_p99 o) /\
   length (po_buckets o) = S (length kHistogramBuckets) /\
   forall j, (j <= length kHistogramBuckets)%nat ->
     nth j (po_buckets o) 0 = count_if (in_slot kHistogramBuckets j) (millis L)).
Proof.
  intros H Hi Ht L. pose proof (run_inv _ _ _ _ _ _ _ _ H Hi Ht) as I. fold L in I.
  split; [exact (print_none _ _ _ I)|]. split; [|exact (printed _ _ _ I)].
  split; intros Hc.
  - destruct (Exists_dec (fun t => t <= -1000) L (fun t => Z_le_dec t (-1000))) as [He|He]; [exact He|].
    exfalso. assert (HF : Forall (fun t => -1000 < t) L).
    { apply Forall_Exists_neg in He. eapply Forall_impl; [|exact He]. cbn. intros. lia. }
    destruct L as [|x L'] eqn:EL.
    + rewrite (proj2 (print_none _ _ _ I) eq_refl) in Hc. discriminate.
    + destruct (printed _ _ _ I HF ltac:(discriminate)) as (o & Ho & _). rewrite Ho in Hc. discriminate.
  - apply Exists_exists in Hc. destruct Hc as [t [Hin Hle]]. exact (print_crash _ _ _ _ I Hin Hle).
Qed.

(** Recording is defined as long as the product with the time-out fits an int. *)
Lemma nth_lt {A} (l : list A) i : (i < length l)%nat -> exists x, nth_error l i = Some x.
Proof. intros H. apply nth_error_Some in H. destruct (nth_error l i) as [x|]; [exists x; reflexivity|congruence]. Qed.
Lemma run_defined net n l : -2863311 <= net <= 2863311 -> Forall (good_op n) l ->
  forall s : list preport, length s = n -> Forall (fun r : preport => length r = kNumTypes) s ->
  exists s', pop_run net s l = Ret s'.
Proof.
  intros Hnet HF. induction HF as [|o l Ho _ IH]; intros s Hs Hr; [exists s; reflexivity|].
  cbn [pop_run]. rewrite Forall_forall in Hr.
  assert (E : exists s1, pop_step net s o = Ret s1 /\ length s1 = n /\ Forall (fun r : preport => length r = kNumTypes) s1).
  { destruct o as [i ty t|i j]; [destruct Ho as [H1 H2]|destruct Ho as (H1 & H2 & H3)]; cbn [pop_step].
    - destruct (nth_lt s i ltac:(lia)) as [r Er]. rewrite Er. unfold addPerfStat.
      replace ((net * 750 <? _) || _) with false.
      2:{ symmetry. apply Bool.orb_false_iff. split; [apply Z.ltb_ge|apply Z.leb_gt]; lia. }
      pose proof (Hr r (nth_error_In _ _ Er)) as Hl. destruct (nth_lt r ty ltac:(lia)) as [p Ep]. rewrite Ep.
      cbn [obind]. eexists. split; [reflexivity|]. split; [rewrite set_length; exact Hs|].
      rewrite Forall_forall. intros x Hx. apply In_nth_error in Hx. destruct Hx as [k Hk]. apply set_cases in Hk.
      destruct Hk as [[_ ->]|[_ Hk]]; [rewrite set_length; exact Hl|exact (Hr _ (nth_error_In _ _ Hk))].
    - apply Nat.eqb_neq in H3. rewrite H3. destruct (nth_lt s i ltac:(lia)) as [a Ea]. destruct (nth_lt s j ltac:(lia)) as [b Eb]. rewrite Ea, Eb.
      eexists. split; [reflexivity|]. split; [rewrite set_length; exact Hs|].
      rewrite Forall_forall. intros x Hx. apply In_nth_error in Hx. destruct Hx as [k Hk]. apply set_cases in Hk.
      destruct Hk as [[_ ->]|[_ Hk]]; [rewrite merge_length|]; [exact (Hr _ (nth_error_In _ _ Ea))|exact (Hr _ (nth_error_In _ _ Hk))]. }
  destruct E as (s1 & -> & Hs1 & Hr1). cbn [obind]. exact (IH s1 Hs1 Hr1).
Qed.
Lemma recording_defined net n l : -2863311 <= net <= 2863311 -> Forall (good_op n) l ->
  exists s, pop_run net (repeat preport_new n) l = Ret s.
Proof.
  intros Hn HF. apply (run_defined net n l Hn HF); [apply repeat_length|].
  rewrite Forall_forall. intros r Hr. apply repeat_spec in Hr. subst. exact new_length.
Qed.
Lemma recording_undefined net ty t : 2863311 < net < 2 ^ 31 ->
  pop_run net [preport_new] [PAdd 0 ty t] = Undef.
Proof.
  intros H. cbn [pop_run pop_step nth_error]. unfold addPerfStat.
  replace (2 ^ 31 <=? net * 750) with true by (symmetry; apply Z.leb_le; lia). rewrite Bool.orb_true_r. reflexivity.
Qed.

(** For the examples: the figures of one type of one report after a run. *)
Definition line_after (net : Z) (n : nat) (l : list pop) (i ty : nat) : outcome (option (Z * Z * Z * Z * list Z * list Z * list Z)) :=
  obind (pop_run net (repeat preport_new n) l) (fun s =>
  obind (perf_print (nth ty (nth i s []) (perf_new ty))) (fun o =>
  Ret (match o with
       | Some x => Some (pl_count x, pl_sum x, pl_min x, pl_max x, po_p50 (pl_out x), po_p95 (pl_out x), po_p99 (pl_out x))
       | None => None
       end))).

Lemma min_refuted : exists l s r p, pop_run 5000 (repeat preport_new 1) l = Ret s /\
  nth_error s 0 = Some r /\ nth_error r FILE_WRITE = Some p /\
  recorded (rev l) 0 FILE_WRITE = [5000; 7000] /\ ~ least [5000; 7000] (pf_min p).
Proof.
  exists [PAdd 0 FILE_WRITE 5000; PAdd 0 FILE_WRITE 7000]. do 3 eexists.
  split; [reflexivity|]. split; [reflexivity|]. split; [reflexivity|]. split; [reflexivity|].
  vm_compute. intros [[H|[H|[]]] _]; discriminate.
Qed.

Lemma slots_partition v : 0 <= v ->
  exists j, (j <= length kHistogramBuckets)%nat /\ in_slot kHistogramBuckets j v = true /\
  forall k, (k <= length kHistogramBuckets)%nat -> in_slot kHistogramBuckets k v = true -> k = j.
Proof.
  intros Hv. exists (slot v). split; [apply slot_bound|]. split.
  - rewrite <- slot_spec by (try assumption; apply slot_bound). apply Nat.eqb_refl.
  - intros k Hk H. rewrite <- slot_spec in H by assumption. apply Nat.eqb_eq in H. symmetry. exact H.
Qed.
Lemma ranked_unique l r a b : ranked l r a -> ranked l r b -> a = b.
Proof.
  intros [Ha1 Ha2] [Hb1 Hb2]. destruct (Z.lt_trichotomy a b) as [H|[H|H]]; [|exact H|].
  - assert (count_if (fun x => x <=? a) l <= count_if (fun x => x <? b) l); [|lia].
    apply count_le. intros x Hx. apply Z.leb_le in Hx. apply Z.ltb_lt. lia.
  - assert (count_if (fun x => x <=? b) l <= count_if (fun x => x <? a) l); [|lia].
    apply count_le. intros x Hx. apply Z.leb_le in Hx. apply Z.ltb_lt. lia.
Qed.
Lemma percentile_unique pc l a b : percentile pc l a -> percentile pc l b -> a = b.
Proof.
  assert (HZ : forall v, position pc l = 0 -> ranked l (position pc l) v -> False).
  { intros v E [H _]. rewrite E in H. pose proof (count_nonneg (fun x => x <? v) l). lia. }
  intros [[E1 ->]|(v & -> & Hv)] [[E2 ->]|(w & -> & Hw)].
  - reflexivity.
  - destruct (HZ w E1 Hw).
  - destruct (HZ v E2 Hv).
  - rewrite (ranked_unique _ _ _ _ Hv Hw). reflexivity.
Qed.
