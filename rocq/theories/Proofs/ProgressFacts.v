(** Proofs about the reports on progress. *)
From Coq Require Import Lia.
From Verif Require Import Spec.ProgressSpec Proofs.UriFacts.
Open Scope Z_scope.

Lemma ilog_digits fuel : forall n acc, 0 <= n < 2 ^ Z.of_nat fuel -> (0 < fuel)%nat ->
  zlen (digits_of fuel n acc) = ilog10 fuel n + 1 + zlen acc.
Proof.
  induction fuel as [|f IH]; intros n acc H F; [lia|]. cbn [digits_of ilog10]. cbv zeta.
  destruct (Z.ltb_spec n 10).
  - unfold zlen. cbn [length]. lia.
  - assert (f <> 0)%nat by (intros ->; change (2 ^ Z.of_nat 1) with 2 in H; lia).
    rewrite IH; [unfold zlen; cbn [length]; lia| |lia]. split; [apply Z.div_pos; lia|].
    apply Z.div_lt_upper_bound; [lia|]. rewrite Nat2Z.inj_succ, Z.pow_succ_r in H by lia. lia.
Qed.
Lemma ilog_more f : forall g n, 0 <= n < 2 ^ Z.of_nat f -> (f <= g)%nat -> ilog10 g n = ilog10 f n.
Proof.
  induction f as [|f IH]; intros g n H G.
  - change (2 ^ Z.of_nat 0) with 1 in H. destruct g; [reflexivity|]. cbn [ilog10]. destruct (Z.ltb_spec n 10); [reflexivity|lia].
  - destruct g as [|g]; [lia|]. cbn [ilog10]. destruct (Z.ltb_spec n 10); [reflexivity|]. f_equal. apply IH; [|lia].
    split; [apply Z.div_pos; lia|]. apply Z.div_lt_upper_bound; [lia|]. rewrite Nat2Z.inj_succ, Z.pow_succ_r in H by lia. lia.
Qed.
Lemma ilog_bound f : forall n k, 0 <= n < 10 ^ (k + 1) -> 0 <= k -> 0 <= ilog10 f n <= k.
Proof.
  induction f as [|f IH]; intros n k H K; cbn [ilog10]; [lia|]. destruct (Z.ltb_spec n 10); [lia|].
  destruct (Z.eq_dec k 0) as [->|X]; [change (10 ^ (0 + 1)) with 10 in H; lia|].
  assert (0 <= ilog10 f (n / 10) <= k - 1); [|lia]. apply IH; [|lia]. split; [apply Z.div_pos; lia|].
  apply Z.div_lt_upper_bound; [lia|]. replace (k - 1 + 1) with k by lia. rewrite Z.pow_add_r in H by lia. lia.
Qed.
(** What is printed and what is subtracted have the same length. *)
Lemma width_is files fin : 0 <= files < 2 ^ 63 ->
  bar_width files fin = 50 - (if fin then 0 else zlen (print_nat files) + 3) /\ 28 <= bar_width files fin <= 50.
Proof.
  intros H. unfold bar_width. destruct fin; [lia|].
  destruct (Z.ltb_spec 0 files) as [P|P].
  - unfold print_nat. set (f := S (Z.to_nat (Z.log2 files))).
    assert (B : 0 <= files < 2 ^ Z.of_nat f).
    { unfold f. rewrite Nat2Z.inj_succ, Z2Nat.id by apply Z.log2_nonneg. destruct (Z.log2_spec files P). lia. }
    rewrite (ilog_digits f) by (try assumption; unfold f; lia).
    assert (L : ilog10 64 files = ilog10 f files).
    { apply ilog_more; [exact B|]. unfold f. assert (Z.log2 files < 63) by (apply Z.log2_lt_pow2; lia). lia. }
    pose proof (ilog_bound f files 18) as Hb. change (10 ^ (18 + 1)) with 10000000000000000000 in Hb.
    rewrite L. unfold zlen. cbn [length]. lia.
  - assert (files = 0) by lia. subst. vm_compute. repeat split; discriminate.
Qed.

Lemma percent_is eff tot : 0 <= eff <= tot -> eff * 100 < 2 ^ 63 -> exists p, percent eff tot = Ret p /\ 0 <= p <= 100 /\
  (0 < tot -> p * tot <= 100 * eff < (p + 1) * tot) /\ (p = 100 <-> 0 < tot /\ eff = tot).
Proof.
  intros H B. unfold percent. destruct (Z.ltb_spec 0 tot) as [T|T].
  - replace ((- 2 ^ 63 <=? eff * 100) && (eff * 100 <? 2 ^ 63)) with true
      by (symmetry; apply andb_true_intro; split; [apply Z.leb_le|apply Z.ltb_lt]; lia).
    rewrite Z.quot_div_nonneg by lia. set (q := eff * 100 / tot).
    pose proof (Z.mul_div_le (eff * 100) tot T) as D1. pose proof (Z.mul_succ_div_gt (eff * 100) tot T) as D2. fold q in D1, D2.
    assert (0 <= q) by (apply Z.div_pos; lia). assert (q <= 100) by nia.
    exists q. split; [|split; [lia|split; [intros _; nia|]]].
    + f_equal. unfold to_int. rewrite Z.mod_small; lia.
    + split; [intros ->; split; [lia|]; nia|]. intros [_ ->]. nia.
  - exists 0. repeat split; try lia.
Qed.
Lemma repeat_zlen (c n : Z) : zlen (times_char n c) = Z.max 0 n.
Proof. unfold zlen, times_char. rewrite repeat_length. lia. Qed.
Lemma zlen_ap {A} (a b : list A) : zlen (a ++ b) = zlen a + zlen b.
Proof. unfold zlen. rewrite app_length. lia. Qed.
Lemma bar_is p files fin : 0 <= p <= 100 -> 0 <= files < 2 ^ 63 -> exists inside,
  bar p files fin = Ret ((if fin then [] else print_nat files ++ [46; 46; 46]) ++ [91] ++ inside ++ [93]) /\
  bar_shows p (bar_width files fin) inside /\
  zlen ((if fin then [] else print_nat files ++ [46; 46; 46]) ++ [91] ++ inside ++ [93]) = 51.
Proof.
  intros P F. destruct (width_is files fin F) as [W [W1 W2]]. unfold bar. set (w := bar_width files fin) in *. cbv zeta.
  assert (K : forall x, - 1000000 <= x <= 1000000 -> int_ok x = true).
  { intros x X. unfold int_ok. apply andb_true_intro. split; [apply Z.leb_le|apply Z.ltb_lt]; lia. }
  rewrite K by nia. rewrite Z.quot_div_nonneg by nia. set (s := p * w / 100).
  assert (S0 : 0 <= s) by (apply Z.div_pos; nia). assert (S1 : s <= w) by (apply Z.div_le_upper_bound; nia).
  rewrite !K by lia. cbn [andb].
  set (arrow := if negb (s =? 0) && negb (s =? w) then [62] else []).
  assert (A : arrow = if (0 <? s) && (s <? w) then [62] else []).
  { unfold arrow. destruct (Z.eqb_spec s 0), (Z.eqb_spec s w), (Z.ltb_spec 0 s), (Z.ltb_spec s w); try reflexivity; lia. }
  clearbody arrow. assert (La : zlen arrow = if (0 <? s) && (s <? w) then 1 else 0) by (rewrite A; destruct (0 <? s), (s <? w); reflexivity).
  exists (times_char (s - 1) 61 ++ arrow ++ times_char (w - s - 1) 32).
  assert (Li : zlen (times_char (s - 1) 61 ++ arrow ++ times_char (w - s - 1) 32) = w - 1).
  { rewrite !zlen_ap, !repeat_zlen, La. destruct (Z.ltb_spec 0 s), (Z.ltb_spec s w); cbn [andb]; lia. }
  split; [|split].
  - f_equal. f_equal. f_equal. rewrite <- !app_assoc. reflexivity.
  - exists (Z.to_nat (s - 1)), arrow, (Z.to_nat (w - s - 1)). split; [reflexivity|]. split; [exact Li|]. split; [|exact A].
    change (repeat 61 (Z.to_nat (s - 1))) with (times_char (s - 1) 61). rewrite zlen_ap, repeat_zlen, La. fold s.
    destruct (Z.ltb_spec 0 s), (Z.ltb_spec s w); cbn [andb]; lia.
  - clearbody w. set (ins := times_char (s - 1) 61 ++ arrow ++ times_char (w - s - 1) 32) in Li |- *. clearbody ins.
    rewrite !zlen_ap, Li, W. change (zlen [91]) with 1. change (zlen [93]) with 1. destruct fin; [cbn; lia|]. rewrite zlen_ap. change (zlen [46; 46; 46]) with 3. lia.
Qed.
Lemma progress_shown eff tot files (fin : bool) : 0 <= eff <= tot -> eff * 100 < 2 ^ 63 -> 0 <= files < 2 ^ 63 ->
  exists p inside, let line := (if fin then [] else print_nat files ++ [46; 46; 46]) ++ [91] ++ inside ++ [93] in
  show_progress eff tot files fin = Ret (p, line) /\ 0 <= p <= 100 /\
  (0 < tot -> p * tot <= 100 * eff < (p + 1) * tot) /\ (p = 100 <-> 0 < tot /\ eff = tot) /\
  bar_shows p (if fin then 50 else 47 - zlen (print_nat files)) inside /\ zlen line = 51.
Proof.
  intros E B F. destruct (percent_is eff tot E B) as (p & P & P1 & P2 & P3).
  destruct (bar_is p files fin P1 F) as (inside & I & I2 & I3). exists p, inside. cbv zeta.
  unfold show_progress. rewrite P. cbn [obind]. rewrite I. cbn [obind]. split; [reflexivity|]. split; [exact P1|]. split; [exact P2|].
  split; [exact P3|]. split; [|exact I3]. destruct (width_is files fin F) as [W _]. rewrite W in I2.
  destruct fin; [exact I2|]. replace (47 - zlen (print_nat files)) with (50 - (zlen (print_nat files) + 3)) by lia. exact I2.
Qed.
Lemma progress_grows a b tot p q : 0 <= a <= b -> b <= tot -> b * 100 < 2 ^ 63 ->
  percent a tot = Ret p -> percent b tot = Ret q -> p <= q.
Proof.
  intros H T B P Q. destruct (percent_is a tot ltac:(lia) ltac:(lia)) as (p' & P' & P1 & P2 & _).
  destruct (percent_is b tot ltac:(lia) B) as (q' & Q' & Q1 & Q2 & _). rewrite P in P'. rewrite Q in Q'. injection P' as <-. injection Q' as <-.
  destruct (Z.ltb_spec 0 tot) as [X|X]; [specialize (P2 X); specialize (Q2 X); nia|]. unfold percent in *.
  replace (0 <? tot) with false in * by (symmetry; apply Z.ltb_ge; lia). injection P as <-. lia.
Qed.

(** ** Throughput *)
Section Throughput.
Variables (every start : Z).
Let e := Nat.max 1 (Z.to_nat every).
Definition St (done : list (Z * Z)) (s : tput) : Prop :=
  let k := length done in
  tp_turns s = Z.of_nat (k mod e) /\ (tp_bytes s, tp_time s) = sample start done (k / e * e) /\
  tp_cur s = last_interval e start done k.
Lemma St_new : St [] (tput_new start).
Proof.
  unfold St. cbn [length]. rewrite Nat.mod_0_l, Nat.div_0_l by (unfold e; lia). cbn [Nat.mul].
  unfold last_interval. rewrite Nat.div_0_l by (unfold e; lia). auto.
Qed.
Lemma sample_app done x n : (n <= length done)%nat -> sample start (done ++ [x]) n = sample start done n.
Proof. intros H. destruct n as [|m]; [reflexivity|]. cbn [sample]. apply app_nth1. lia. Qed.
Lemma sample_last done x : sample start (done ++ [x]) (S (length done)) = x.
Proof. cbn [sample]. rewrite app_nth2 by lia. rewrite Nat.sub_diag. reflexivity. Qed.
Lemma St_step done s x : St done s -> St (done ++ [x]) (tput_step every s x).
Proof.
  intros (A & B & C). unfold St. rewrite app_length. cbn [length]. set (k := length done) in *. rewrite Nat.add_1_r.
  assert (E0 : e <> 0%nat) by (unfold e; lia).
  pose proof (Nat.div_mod k e E0) as DM. pose proof (Nat.mod_upper_bound k e E0) as MB.
  set (q := (k / e)%nat) in *. set (r := (k mod e)%nat) in *.
  assert (SL : sample start (done ++ [x]) (S k) = x) by apply sample_last.
  assert (SA : forall n, (n <= k)%nat -> sample start (done ++ [x]) n = sample start done n) by (intros; apply sample_app; assumption).
  unfold tput_step. destruct x as [b t]. destruct (Z.leb_spec every (tp_turns s + 1)) as [L|L].
  - assert (R : (r + 1 = e)%nat).
    { rewrite A in L. unfold e in *. lia. }
    assert (Q : (S k / e = S q)%nat) by (symmetry; apply Nat.div_unique with 0%nat; lia).
    assert (M : (S k mod e = 0)%nat) by (symmetry; apply Nat.mod_unique with (S q); lia).
    cbn [tp_turns tp_bytes tp_time tp_cur]. rewrite Q, M. split; [reflexivity|].
    assert (K : (S q * e = S k)%nat) by lia. split; [rewrite K, SL; reflexivity|].
    unfold last_interval. rewrite Q. cbv zeta. rewrite K, SL, SA by lia. rewrite <- B. reflexivity.
  - assert (R : (r + 1 < e)%nat) by (rewrite A in L; unfold e in *; lia).
    assert (Q : (S k / e = q)%nat) by (symmetry; apply Nat.div_unique with (r + 1)%nat; lia).
    assert (M : (S k mod e = r + 1)%nat) by (symmetry; apply Nat.mod_unique with q; lia).
    cbn [tp_turns tp_bytes tp_time tp_cur]. rewrite Q, M. split; [rewrite A; lia|].
    split; [rewrite B, SA by lia; reflexivity|]. rewrite C. unfold last_interval. rewrite Q. fold q.
    destruct q as [|q']; [reflexivity|]. cbv zeta. rewrite !SA by nia. reflexivity.
Qed.
Lemma interval_app done l k : (k <= length done)%nat -> last_interval e start (done ++ l) k = last_interval e start done k.
Proof.
  intros H. assert (S : forall n, (n <= length done)%nat -> sample start (done ++ l) n = sample start done n).
  { intros n N. destruct n as [|m]; [reflexivity|]. cbn [sample]. apply app_nth1. lia. }
  unfold last_interval. destruct (k / e)%nat as [|q] eqn:Q; [reflexivity|]. cbv zeta.
  assert (E0 : e <> 0%nat) by (unfold e; lia). pose proof (Nat.mul_div_le k e E0). rewrite Q in H0.
  rewrite !S by lia. reflexivity.
Qed.
Lemma run_is l : forall done s k, St done s -> (k < length l)%nat ->
  nth_error (tput_run every s l) k = Some (last_interval e start (done ++ l) (length done + k + 1)).
Proof.
  induction l as [|x l IH]; intros done s k I K; [cbn in K; lia|]. cbn [tput_run]. cbv zeta.
  pose proof (St_step done s x I) as I'. replace (done ++ x :: l) with ((done ++ [x]) ++ l) by (rewrite <- app_assoc; reflexivity).
  destruct k as [|k]; cbn [nth_error].
  - destruct I' as (_ & _ & C). rewrite C, (interval_app (done ++ [x]) l) by (rewrite app_length; cbn [length]; lia).
    rewrite app_length. cbn [length]. replace (length done + 0 + 1)%nat with (length done + 1)%nat by lia. reflexivity.
  - rewrite (IH _ _ k I') by (cbn [length] in K; lia). rewrite app_length. cbn [length].
    replace (length done + 1 + k + 1)%nat with (length done + S k + 1)%nat by lia. reflexivity.
Qed.
End Throughput.
Lemma throughput_is every start l k : (k < length l)%nat ->
  nth_error (tput_run every (tput_new start) l) k =
  Some (last_interval (Nat.max 1 (Z.to_nat every)) start l (S k)).
Proof.
  intros K. rewrite (run_is every start l [] _ k (St_new every start) K). cbn [app length Nat.add]. rewrite Nat.add_1_r. reflexivity.
Qed.

(** ** Witnesses *)
Lemma falls : exists a b ta tb p q, a <= b /\ a <= ta /\ b <= tb /\ percent a ta = Ret p /\ percent b tb = Ret q /\ q < p.
Proof. exists 50, 60, 100, 1000, 50, 6. repeat split; vm_compute; congruence. Qed.
Lemma too_much : show_progress 92233720368547759 92233720368547759 1 true = Undef.
Proof. vm_compute. reflexivity. Qed.
Lemma claimed : (exists p b, show_progress 3 1 0 true = Ret (p, b) /\ p = 300 /\ zlen b = 152) /\
  show_progress 500000 1 0 true = Undef.
Proof.
  split; [|vm_compute; reflexivity]. exists 300. eexists. split; [vm_compute; reflexivity|]. split; [reflexivity|]. vm_compute. reflexivity.
Qed.

Lemma interval_is t r : 0 <= t -> 0 < r -> update_every t r * r <= t < (update_every t r + 1) * r.
Proof.
  intros T R. unfold update_every. rewrite Z.quot_div_nonneg by lia.
  pose proof (Z.mul_div_le t r R). pose proof (Z.mul_succ_div_gt t r R). lia.
Qed.
