From Coq Require Import ZArith List Bool Lia Arith.
From Verif.Model Require Import LogLock.
From Verif.Spec Require Import LogLockSpec.
Import ListNotations.
Open Scope Z_scope.

Lemma nth_lk_set l i p j : (i < length l)%nat -> nth_error (lk_set l i p) j = if (j =? i)%nat then Some p else nth_error l j.
Proof.
  unfold lk_set. revert l j. induction i as [|i IH]; intros [|a l] j Hi; simpl in Hi; try lia.
  - destruct j; reflexivity.
  - destruct j; [reflexivity|]. cbn. apply (IH l j). lia.
Qed.
Lemma lk_step_inv s e s' : lk_step s e = Some s' ->
  exists i p p' n x, nth_error (lk_procs s) i = Some p /\
    s' = {| lk_name := n; lk_next := x; lk_bad := lk_bad s; lk_procs := lk_set (lk_procs s) i p' |} /\
    ((exists ok, e = KStep i ok /\ lk_call s p ok = Some (n, x, p')) \/
     (e = KKill i /\ n = lk_name s /\ x = lk_next s /\ p' = lk_shut p KDead)).
Proof.
  destruct e as [i ok|i]; cbn; destruct (nth_error (lk_procs s) i) as [p|] eqn:N; try discriminate.
  - destruct (lk_call s p ok) as [[[n x] p']|] eqn:C; [|discriminate]. intros [= <-].
    exists i, p, p', n, x. split; [exact N|]. split; [reflexivity|]. left. eauto.
  - intros [= <-]. exists i, p, (lk_shut p KDead), (lk_name s), (lk_next s). auto 8.
Qed.

(** What a call does to the directory and to the descriptor. *)
Lemma call_name s p ok n x p' : lk_call s p ok = Some (n, x, p') ->
  (n = lk_name s /\ x = lk_next s) \/
  (lk_name s = None /\ n = Some (lk_next s) /\ x = lk_next s + 1 /\ lk_pc p = KCreate /\ p' = lk_go p KReopen) \/
  (n = None /\ x = lk_next s /\ lk_pc p = KRemove).
Proof.
  unfold lk_call. destruct (lk_pc p) eqn:P; try discriminate.
  - destruct ok; [destruct (lk_name s)|]; intros [= <- <- <-]; auto.
  - destruct ok; [destruct (lk_name s) eqn:N|]; intros [= <- <- <-]; auto 8.
  - destruct ok; [destruct (lk_name s)|]; intros [= <- <- <-]; auto.
  - destruct ok; [destruct (lk_fd p); [destruct (lk_taken s z)|]|]; intros [= <- <- <-]; auto.
  - destruct (existsb _ _); intros [= <- <- <-]; auto.
  - intros [= <- <- <-]; auto.
  - destruct (ok && lk_same s p); intros [= <- <- <-]; auto.
  - intros [= <- <- <-]; auto.
  - intros [= <- <- <-]; auto.
  - destruct ok; intros [= <- <- <-]; auto 8.
Qed.
(** The descriptor is kept, closed, or opened on what the name is. *)
Lemma call_fd s p ok n x p' : lk_call s p ok = Some (n, x, p') ->
  (lk_fd p' = lk_fd p /\ (lk_locked p' = lk_locked p \/
     exists f, lk_fd p = Some f /\ lk_taken s f = false /\ lk_locked p' = true /\ lk_pc p = KFlock)) \/
  (lk_fd p' = None /\ lk_locked p' = false) \/
  (exists f, lk_name s = Some f /\ lk_fd p' = Some f /\ lk_locked p' = false /\ lk_pc p' = KFlock).
Proof.
  unfold lk_call. destruct (lk_pc p) eqn:P; try discriminate.
  - destruct ok; [destruct (lk_name s) eqn:N|]; intros [= <- <- <-]; cbn; eauto 9.
  - destruct ok; [destruct (lk_name s)|]; intros [= <- <- <-]; cbn; eauto 9.
  - destruct ok; [destruct (lk_name s) eqn:N|]; intros [= <- <- <-]; cbn; eauto 9.
  - destruct ok; [destruct (lk_fd p) eqn:F; [destruct (lk_taken s z) eqn:T|]|]; intros [= <- <- <-]; cbn; rewrite ?F; eauto 11.
  - destruct (existsb _ _); intros [= <- <- <-]; cbn; eauto 9.
  - intros [= <- <- <-]; cbn; eauto 9.
  - destruct (ok && lk_same s p); intros [= <- <- <-]; cbn; eauto 9.
  - intros [= <- <- <-]; cbn; eauto 9.
  - intros [= <- <- <-]; cbn; eauto 9.
  - destruct ok; intros [= <- <- <-]; cbn; eauto 9.
Qed.
Lemma taken_not s f j q : lk_taken s f = false -> nth_error (lk_procs s) j = Some q -> lk_locked q = true -> lk_fd q <> Some f.
Proof.
  intros T N L E. assert (lk_taken s f = true); [|congruence].
  unfold lk_taken. apply existsb_exists. exists q. split; [eapply nth_error_In; eauto|]. rewrite L, E. cbn. apply Z.eqb_refl.
Qed.

(** ** One holder for each file *)
Definition sane (s : lkstate) : Prop :=
  (forall f, lk_name s = Some f -> f < lk_next s) /\
  (forall i p f, nth_error (lk_procs s) i = Some p -> lk_fd p = Some f -> f < lk_next s) /\
  (forall i j p q f, nth_error (lk_procs s) i = Some p -> nth_error (lk_procs s) j = Some q ->
     lk_locked p = true -> lk_locked q = true -> lk_fd p = Some f -> lk_fd q = Some f -> i = j) /\
  (forall i p, nth_error (lk_procs s) i = Some p ->
     match lk_pc p with
     | KOpen | KCreate | KReopen | KLoose | KRemove | KDone | KError | KExit | KDead => lk_fd p = None /\ lk_locked p = false
     | KFlock => lk_fd p <> None /\ lk_locked p = false
     | KParse | KWork => lk_fd p <> None /\ lk_locked p = true
     | KCheck | KClose => lk_fd p <> None
     end).

Lemma sane_step s e s' : sane s -> lk_step s e = Some s' -> sane s'.
Proof.
  intros [A [B [C D]]] E. destruct (lk_step_inv _ _ _ E) as [i [p [p' [n [x [N [-> H]]]]]]]. clear E.
  assert (L : (i < length (lk_procs s))%nat) by (apply nth_error_Some; congruence).
  assert (NX : lk_next s <= x /\ (forall f, n = Some f -> f < x)).
  { destruct H as [[ok [_ H]]|[_ [-> [-> _]]]]; [|split; [lia|auto]].
    destruct (call_name _ _ _ _ _ _ H) as [[-> ->]|[[_ [-> [-> _]]]|[-> [-> _]]]]; (split; [lia|]); auto; intros f [= <-]; lia. }
  assert (FD : (lk_fd p' = lk_fd p /\ (lk_locked p' = lk_locked p \/
     exists f, lk_fd p = Some f /\ lk_taken s f = false /\ lk_locked p' = true)) \/ (lk_fd p' = None /\ lk_locked p' = false) \/
     (exists f, lk_name s = Some f /\ lk_fd p' = Some f /\ lk_locked p' = false)).
  { destruct H as [[ok [_ H]]|[_ [_ [_ ->]]]]; [|right; left; split; reflexivity].
    destruct (call_fd _ _ _ _ _ _ H) as [[F [G|[f [F1 [F2 [F3 _]]]]]]|[G|[f [F1 [F2 [F3 _]]]]]]; eauto 11. }
  unfold sane; cbn [lk_name lk_next lk_procs]. split; [|split; [|split]].
  - apply NX.
  - intros j q f. rewrite nth_lk_set by auto. destruct (j =? i)%nat.
    + intros [= <-] F. destruct FD as [[F' _]|[[F' _]|[g [G1 [G2 _]]]]].
      * rewrite F' in F. specialize (B i p f N F). lia.
      * congruence.
      * assert (f = g) by congruence. subst. specialize (A g G1). lia.
    + intros M F. specialize (B j q f M F). lia.
  - assert (K : forall j q f, nth_error (lk_procs s) j = Some q -> j <> i -> lk_locked p' = true -> lk_locked q = true ->
       lk_fd p' = Some f -> lk_fd q = Some f -> False).
    { intros j q f M J L1 L2 F1 F2. destruct FD as [[F' [G|[g [G1 [G2 G3]]]]]|[[_ G]|[g [_ [_ G]]]]]; try congruence.
      - apply J. apply (C j i q p f); congruence.
      - assert (f = g) by congruence. subst. exact (taken_not s g j q G2 M L2 F2). }
    intros j1 j2 q1 q2 f. rewrite !nth_lk_set by auto.
    destruct (Nat.eqb_spec j1 i), (Nat.eqb_spec j2 i); subst; auto.
    + intros [= <-] M L1 L2 F1 F2. exfalso. eapply K; eauto.
    + intros M [= <-] L1 L2 F1 F2. exfalso. eapply K; eauto.
    + apply C.
  - intros j q. rewrite nth_lk_set by auto. destruct (j =? i)%nat; [|apply D].
    intros [= <-]. specialize (D i p N). destruct H as [[ok [_ H]]|[_ [_ [_ ->]]]]; [|split; reflexivity].
    unfold lk_call in H. destruct (lk_pc p) eqn:P; try discriminate.
    + destruct ok; [destruct (lk_name s)|]; injection H as <- <- <-; cbn; auto. split; [discriminate|reflexivity].
    + destruct ok; [destruct (lk_name s)|]; injection H as <- <- <-; cbn; auto.
    + destruct ok; [destruct (lk_name s)|]; injection H as <- <- <-; cbn; auto. split; [discriminate|reflexivity].
    + destruct D as [D1 D2]. destruct ok; [destruct (lk_fd p) eqn:F; [destruct (lk_taken s z)|]|]; injection H as <- <- <-; cbn; rewrite ?F; auto.
    + destruct D as [D1 D2]. destruct (existsb _ _); injection H as <- <- <-; cbn; auto.
    + injection H as <- <- <-; cbn. tauto.
    + destruct (ok && lk_same s p); injection H as <- <- <-; cbn; auto.
    + injection H as <- <- <-. cbn. destruct (lk_locked p); cbn [negb]; [destruct (lk_invalid p); [|destruct (lk_success p && lk_unlinks p)]|]; auto.
    + injection H as <- <- <-; cbn. destruct (lk_success p); auto.
    + injection H as <- <- <-; cbn. destruct (lk_invalid p && lk_unlinks p); auto.
Qed.
Lemma start_proc log bad us i p : nth_error (lk_procs (lk_start log bad us)) i = Some p -> exists u, nth_error us i = Some u /\ p = lk_fresh u.
Proof. cbn [lk_start lk_procs]. rewrite nth_error_map. destruct (nth_error us i); cbn [option_map]; [|discriminate]. intros [= <-]. eauto. Qed.
Lemma sane_start log bad us : sane (lk_start log bad us).
Proof.
  split; [|split; [|split]].
  - cbn. destruct log; intros f [= <-]; lia.
  - intros i p f N. apply start_proc in N. destruct N as [u [_ ->]]. discriminate.
  - intros i j p q f N. apply start_proc in N. destruct N as [u [_ ->]]. discriminate.
  - intros i p N. apply start_proc in N. destruct N as [u [_ ->]]. cbn. auto.
Qed.
Lemma sane_run l : forall s s', sane s -> lk_run s l = Some s' -> sane s'.
Proof.
  induction l as [|e l IH]; intros s s' B R; cbn in R.
  - now injection R as <-.
  - destruct (lk_step s e) as [s1|] eqn:E; [|discriminate]. apply (IH s1 s'); [|exact R]. exact (sane_step _ _ _ B E).
Qed.

Lemma one_each log bad us l s i j f : lk_run (lk_start log bad us) l = Some s ->
  at_pc s i KWork -> at_pc s j KWork -> has_open s i f -> has_open s j f -> i = j.
Proof.
  intros R [p [N P]] [q [M Q]] [p2 [N2 F]] [q2 [M2 G]].
  assert (p2 = p) by congruence. assert (q2 = q) by congruence. subst p2 q2.
  destruct (sane_run _ _ _ (sane_start log bad us) R) as [_ [_ [C D]]].
  apply (C i j p q f); auto.
  - specialize (D i p N). rewrite P in D. apply D.
  - specialize (D j q M). rewrite Q in D. apply D.
Qed.

(** ** If the log is neither removed nor invalid *)
Definition steady (s : lkstate) : Prop :=
  lk_bad s = [] /\
  (forall i p f, nth_error (lk_procs s) i = Some p -> lk_fd p = Some f -> lk_name s = Some f) /\
  (forall i p, nth_error (lk_procs s) i = Some p -> (lk_unlinks p = false \/ lk_success p = false) /\ lk_invalid p = false /\
     lk_pc p <> KLoose /\ lk_pc p <> KRemove).
Lemma steady_step s e s' : steady s -> lk_step s e = Some s' -> steady s'.
Proof.
  intros [Z [A B]] E. destruct (lk_step_inv _ _ _ E) as [i [p [p' [n [x [N [-> H]]]]]]]. clear E.
  assert (L : (i < length (lk_procs s))%nat) by (apply nth_error_Some; congruence).
  destruct (B i p N) as [U [V [P1 P2]]].
  assert (NM : n = lk_name s \/ lk_name s = None).
  { destruct H as [[ok [_ H]]|[_ [-> [-> _]]]]; auto.
    destruct (call_name _ _ _ _ _ _ H) as [[-> ->]|[[X _]|[_ [_ X]]]]; auto. congruence. }
  split; [exact Z|]. split.
  - intros j q f. cbn [lk_procs lk_name]. rewrite nth_lk_set by auto. destruct (Nat.eqb_spec j i).
    + intros [= <-] F. destruct H as [[ok [_ H]]|[_ [_ [_ ->]]]]; [|discriminate].
      assert (X : lk_name s = Some f).
      { destruct (call_fd _ _ _ _ _ _ H) as [[F' _]|[[F' _]|[g [G1 [G2 _]]]]]; try congruence. apply (A i p f N). congruence. }
      destruct NM as [->|NM]; congruence.
    + intros M F. specialize (A j q f M F). destruct NM as [->|NM]; congruence.
  - intros j q. cbn [lk_procs]. rewrite nth_lk_set by auto. destruct (j =? i)%nat; [|apply B].
    intros [= <-]. destruct H as [[ok [-> H]]|[_ [_ [_ ->]]]].
    2:{ cbn. repeat split; auto; discriminate. }
    unfold lk_call in H. rewrite Z in H. cbn [existsb] in H. destruct (lk_pc p) eqn:P; try discriminate; try congruence.
    + destruct ok; [destruct (lk_name s)|]; injection H as <- <- <-; cbn; repeat split; auto; discriminate.
    + destruct ok; [destruct (lk_name s)|]; injection H as <- <- <-; cbn; repeat split; auto; discriminate.
    + destruct ok; [destruct (lk_name s)|]; injection H as <- <- <-; cbn; repeat split; auto; discriminate.
    + destruct ok; [destruct (lk_fd p); [destruct (lk_taken s z)|]|]; injection H as <- <- <-; cbn; repeat split; auto; discriminate.
    + injection H as <- <- <-; cbn; repeat split; auto; discriminate.
    + injection H as <- <- <-; cbn; repeat split; auto; discriminate.
    + destruct (ok && lk_same s p); injection H as <- <- <-; cbn; repeat split; auto; discriminate.
    + injection H as <- <- <-. unfold lk_shut. cbn. rewrite V.
      replace (lk_success p && lk_unlinks p) with false by (destruct U as [-> | ->]; [symmetry; apply andb_false_r|reflexivity]).
      destruct (lk_locked p); cbn; repeat split; auto; discriminate.
Qed.
Definition no_exit (s : lkstate) : Prop := forall i p, nth_error (lk_procs s) i = Some p -> lk_pc p <> KExit.
Lemma no_exit_step s e s' : sane s -> steady s -> no_exit s -> fine e -> lk_step s e = Some s' -> no_exit s'.
Proof.
  intros [_ [_ [_ D]]] [Z [A B]] NE FI E. destruct (lk_step_inv _ _ _ E) as [i [p [p' [n [x [N [-> H]]]]]]]. clear E.
  assert (L : (i < length (lk_procs s))%nat) by (apply nth_error_Some; congruence).
  intros j q. cbn [lk_procs]. rewrite nth_lk_set by auto. destruct (j =? i)%nat; [|apply NE].
  intros [= <-]. destruct H as [[ok [-> H]]|[_ [_ [_ ->]]]]; [|discriminate]. cbn in FI. subst ok.
  specialize (D i p N). unfold lk_call in H. destruct (lk_pc p) eqn:P; try discriminate.
  - destruct (lk_name s); injection H as <- <- <-; discriminate.
  - destruct (lk_name s); injection H as <- <- <-; discriminate.
  - destruct (lk_name s); injection H as <- <- <-; discriminate.
  - destruct (lk_fd p); [destruct (lk_taken s z)|]; injection H as <- <- <-; discriminate.
  - destruct (existsb _ _); injection H as <- <- <-; discriminate.
  - injection H as <- <- <-; discriminate.
  - assert (X : lk_same s p = true).
    { unfold lk_same. destruct (lk_fd p) as [f|] eqn:F; [|congruence]. rewrite (A i p f N F). apply Z.eqb_refl. }
    rewrite X in H. cbn [andb] in H. injection H as <- <- <-; discriminate.
  - injection H as <- <- <-. cbn. destruct (negb (lk_locked p)), (lk_invalid p), (lk_success p && lk_unlinks p); discriminate.
  - injection H as <- <- <-. cbn. destruct (lk_success p); discriminate.
  - injection H as <- <- <-. cbn. destruct (lk_invalid p && lk_unlinks p); discriminate.
Qed.
Lemma steady_run l : forall s s', steady s -> lk_run s l = Some s' -> steady s'.
Proof.
  induction l as [|e l IH]; intros s s' B R; cbn in R.
  - now injection R as <-.
  - destruct (lk_step s e) as [s1|] eqn:E; [|discriminate]. apply (IH s1 s'); [|exact R]. exact (steady_step _ _ _ B E).
Qed.
Lemma no_exit_run l : forall s s', sane s -> steady s -> no_exit s -> Forall fine l -> lk_run s l = Some s' -> no_exit s'.
Proof.
  induction l as [|e l IH]; intros s s' SA B NE F R; cbn in R.
  - now injection R as <-.
  - destruct (lk_step s e) as [s1|] eqn:E; [|discriminate]. inversion_clear F. apply (IH s1 s'); auto.
    + exact (sane_step _ _ _ SA E).
    + exact (steady_step _ _ _ B E).
    + exact (no_exit_step _ _ _ SA B NE H E).
Qed.
Lemma steady_start log us : Forall leaves us -> steady (lk_start log false us).
Proof.
  intros F. split; [reflexivity|]. split.
  - intros i p f N. apply start_proc in N. destruct N as [u [_ ->]]. discriminate.
  - intros i p N. apply start_proc in N. destruct N as [u [M ->]]. cbn. rewrite Forall_forall in F.
    apply nth_error_In in M. specialize (F u M). repeat split; auto; discriminate.
Qed.
Lemma exclusive_all log us l s : Forall leaves us -> lk_run (lk_start log false us) l = Some s ->
  forall i j, works s i -> works s j -> i = j.
Proof.
  intros U R. pose proof (sane_run _ _ _ (sane_start log false us) R) as [_ [_ [C D]]].
  destruct (steady_run _ _ _ (steady_start log us U) R) as [_ [A B]].
  assert (W : forall i, works s i -> exists p f, nth_error (lk_procs s) i = Some p /\ lk_locked p = true /\ lk_fd p = Some f /\ lk_name s = Some f).
  { intros i [[p [N P]]|[p [N P]]].
    - specialize (D i p N). rewrite P in D. destruct D as [D1 D2]. destruct (lk_fd p) as [f|] eqn:E; [|congruence].
      exists p, f. repeat split; auto. eapply A; eauto.
    - exfalso. destruct (B i p N) as [_ [_ [X _]]]. congruence. }
  intros i j Wi Wj. destruct (W i Wi) as [p [f [N [L1 [F1 G1]]]]]. destruct (W j Wj) as [q [g [M [L2 [F2 G2]]]]].
  apply (C i j p q f); auto. congruence.
Qed.
Lemma no_exit_all log us l s i : Forall leaves us -> Forall fine l -> lk_run (lk_start log false us) l = Some s -> ~ at_pc s i KExit.
Proof.
  intros U F R [p [N P]].
  apply (no_exit_run _ _ _ (sane_start log false us) (steady_start log us U)) in R; [|intros j q M; apply start_proc in M; destruct M as [u [_ ->]]; discriminate|exact F].
  exact (R i p N P).
Qed.

(** ** A log removed under a receiver *)
Definition stale_at (s : lkstate) (i : nat) (f : Z) : Prop :=
  lk_name s <> Some f /\ f < lk_next s /\
  exists p, nth_error (lk_procs s) i = Some p /\
    ((lk_fd p = Some f /\ (lk_pc p = KFlock \/ lk_pc p = KParse \/ lk_pc p = KWork \/ lk_pc p = KCheck)) \/
     lk_pc p = KExit \/ lk_pc p = KDead).
Lemma stale_step s e s' i f : stale_at s i f -> lk_step s e = Some s' -> stale_at s' i f.
Proof.
  intros [A [B [p [N P]]]] E. destruct (lk_step_inv _ _ _ E) as [j [q [q' [n [x [M [-> H]]]]]]]. clear E.
  assert (L : (j < length (lk_procs s))%nat) by (apply nth_error_Some; congruence).
  assert (NM : n <> Some f /\ f < x).
  { destruct H as [[ok [_ H]]|[_ [-> [-> _]]]]; auto.
    destruct (call_name _ _ _ _ _ _ H) as [[-> ->]|[[_ [-> [-> _]]]|[-> [-> _]]]]; auto.
    - split; [intros [= X]; lia|lia].
    - split; [discriminate|lia]. }
  split; [apply NM|]. split; [apply NM|]. cbn [lk_procs lk_next].
  destruct (Nat.eqb_spec i j) as [->|].
  2:{ exists p. rewrite nth_lk_set by auto. destruct (Nat.eqb_spec i j); [contradiction|]. auto. }
  exists q'. rewrite nth_lk_set by auto. rewrite Nat.eqb_refl. split; [reflexivity|].
  assert (q = p) by congruence. subst q.
  destruct H as [[ok [_ H]]|[_ [_ [_ ->]]]]; [|auto].
  unfold lk_call in H. destruct P as [[F [P|[P|[P|P]]]]|[P|P]]; rewrite P in H; try discriminate; rewrite ?F in H.
  - destruct ok; [destruct (lk_taken s f)|]; injection H as <- <- <-; cbn; rewrite ?F; auto 8.
  - destruct (existsb _ _); injection H as <- <- <-; cbn; rewrite ?F; auto 8.
  - injection H as <- <- <-; cbn; rewrite ?F; auto 8.
  - assert (X : lk_same s p = false).
    { unfold lk_same. rewrite F. destruct (lk_name s) as [g|]; [|reflexivity]. apply Z.eqb_neq. congruence. }
    rewrite X, andb_false_r in H. injection H as <- <- <-; cbn. auto.
Qed.
Lemma stale_run l : forall s s' i f, stale_at s i f -> lk_run s l = Some s' -> stale_at s' i f.
Proof.
  induction l as [|e l IH]; intros s s' i f B R; cbn in R.
  - now injection R as <-.
  - destruct (lk_step s e) as [s1|] eqn:E; [|discriminate]. apply (IH s1 s'); [|exact R]. exact (stale_step _ _ _ _ _ B E).
Qed.
Lemma stale_all log bad us l s i f l' s' : lk_run (lk_start log bad us) l = Some s -> has_open s i f ->
  lk_name s <> Some f -> ~ at_pc s i KClose -> lk_run s l' = Some s' ->
  ~ at_pc s' i KDone /\ ~ at_pc s' i KError /\ ~ at_pc s' i KLoose /\ ~ at_pc s' i KRemove /\ ~ at_pc s' i KClose.
Proof.
  intros R [p [N F]] ST NC R'.
  destruct (sane_run _ _ _ (sane_start log bad us) R) as [_ [B [_ D]]].
  assert (Q : stale_at s i f).
  { split; [exact ST|]. split; [eapply B; eauto|]. exists p. split; [exact N|]. left. split; [exact F|].
    specialize (D i p N). destruct (lk_pc p) eqn:P; try (destruct D; congruence); auto.
    exfalso. apply NC. exists p. auto. }
  destruct (stale_run _ _ _ _ _ Q R') as [_ [_ [q [M X]]]].
  assert (Y : forall pc, at_pc s' i pc -> lk_pc q = pc) by (intros pc [r [Mr Pr]]; congruence).
  repeat split; intros W; apply Y in W; destruct X as [[_ [X|[X|[X|X]]]]|[X|X]]; congruence.
Qed.

(** ** A receiver left alone gets the log, also after others died *)
Lemma set_twice l i (p q : lkproc) : (i < length l)%nat -> lk_set (lk_set l i p) i q = lk_set l i q.
Proof.
  unfold lk_set. revert l. induction i as [|i IH]; intros [|a l] H; simpl in H; try lia; cbn; [reflexivity|].
  f_equal. apply IH. lia.
Qed.
Lemma set_length l i (p : lkproc) : (i < length l)%nat -> length (lk_set l i p) = length l.
Proof. intros H. unfold lk_set. rewrite app_length, firstn_length. cbn [length]. rewrite skipn_length. lia. Qed.
Lemma taken_set s n x b i f p q : nth_error (lk_procs s) i = Some p -> lk_taken s f = false -> lk_locked q = false ->
  lk_taken {| lk_name := n; lk_next := x; lk_bad := b; lk_procs := lk_set (lk_procs s) i q |} f = false.
Proof.
  intros N T L. match goal with |- ?t = false => destruct t eqn:E end; [|reflexivity].
  unfold lk_taken in E. cbn [lk_procs] in E. apply existsb_exists in E. destruct E as [r [I E]].
  assert (Li : (i < length (lk_procs s))%nat) by (apply nth_error_Some; congruence).
  apply In_nth_error in I. destruct I as [j J]. rewrite nth_lk_set in J by auto. destruct (j =? i)%nat.
  - injection J as <-. rewrite L in E. discriminate.
  - exfalso. assert (lk_taken s f = true); [|congruence]. unfold lk_taken. apply existsb_exists. exists r. split; [eapply nth_error_In; eauto|exact E].
Qed.
Lemma alone_gets_it s i p : nth_error (lk_procs s) i = Some p -> lk_pc p = KOpen -> lk_locked p = false -> sane s ->
  (forall f, lk_name s = Some f -> lk_taken s f = false /\ ~ In f (lk_bad s)) -> ~ In (lk_next s) (lk_bad s) ->
  exists n s', (n <= 5)%nat /\ lk_run s (repeat (KStep i true) n) = Some s' /\ at_pc s' i KWork.
Proof.
  intros N P L SA T NB.
  assert (Li : (i < length (lk_procs s))%nat) by (apply nth_error_Some; congruence).
  assert (BF : forall f b, ~ In f b -> existsb (fun i0 => i0 =? f) b = false).
  { intros f b NI. destruct (existsb _ b) eqn:E; [|reflexivity]. apply existsb_exists in E. destruct E as [y [I E]].
    apply Z.eqb_eq in E. subst. contradiction. }
  destruct (lk_name s) as [f|] eqn:NM.
  - destruct (T f eq_refl) as [T1 T2]. exists 3%nat. eexists. split; [lia|].
    cbn [repeat lk_run lk_step]. rewrite N. unfold lk_call at 1. rewrite P, NM. cbn [lk_procs].
    rewrite nth_lk_set, Nat.eqb_refl by auto. unfold lk_call at 1. cbn [lk_open lk_pc lk_fd lk_go].
    rewrite (taken_set s _ _ _ i f p) by auto. cbn [lk_procs].
    rewrite set_twice by auto. rewrite nth_lk_set, Nat.eqb_refl by auto. unfold lk_call. cbn [lk_pc lk_fd lk_bad lk_go].
    rewrite BF by auto. split; [reflexivity|]. exists (lk_go {| lk_pc := KParse; lk_fd := Some f; lk_locked := true; lk_invalid := false; lk_unlinks := lk_unlinks p; lk_success := lk_success p |} KWork).
    cbn [lk_procs]. rewrite set_twice, nth_lk_set, Nat.eqb_refl by auto. split; reflexivity.
  - exists 5%nat. eexists. split; [lia|].
    assert (TN : lk_taken s (lk_next s) = false).
    { destruct (lk_taken s (lk_next s)) eqn:E; [|reflexivity]. unfold lk_taken in E. apply existsb_exists in E. destruct E as [r [I E]].
      apply In_nth_error in I. destruct I as [j J]. apply andb_true_iff in E. destruct E as [_ E].
      destruct (lk_fd r) as [g|] eqn:F; [|discriminate]. apply Z.eqb_eq in E. subst g. destruct SA as [_ [B _]]. specialize (B j r _ J F). lia. }
    cbn [repeat lk_run lk_step]. rewrite N. unfold lk_call at 1. rewrite P, NM. cbn [lk_procs].
    rewrite nth_lk_set, Nat.eqb_refl by auto. unfold lk_call at 1. cbn [lk_go lk_pc lk_name lk_next lk_procs lk_bad].
    rewrite set_twice by auto. rewrite nth_lk_set, Nat.eqb_refl by auto. unfold lk_call at 1. cbn [lk_go lk_pc lk_name lk_next lk_procs lk_bad].
    rewrite set_twice by auto. rewrite nth_lk_set, Nat.eqb_refl by auto. unfold lk_call at 1. cbn [lk_open lk_go lk_pc lk_fd lk_name lk_next lk_procs lk_bad].
    rewrite (taken_set s _ _ _ i (lk_next s) p) by auto. cbn [lk_procs].
    rewrite set_twice by auto. rewrite nth_lk_set, Nat.eqb_refl by auto. unfold lk_call. cbn [lk_open lk_pc lk_fd lk_bad lk_go lk_name lk_next lk_procs].
    rewrite BF by auto. split; [reflexivity|]. eexists. cbn [lk_procs]. rewrite set_twice, nth_lk_set, Nat.eqb_refl by auto. split; reflexivity.
Qed.
Lemma alone_all log bad us l s i : lk_run (lk_start log bad us) l = Some s -> at_pc s i KOpen ->
  (forall f, lk_name s = Some f -> ~ In f (lk_bad s) /\
     (forall j p, nth_error (lk_procs s) j = Some p -> lk_fd p = Some f -> lk_locked p = false)) ->
  exists n s', (n <= 5)%nat /\ lk_run s (repeat (KStep i true) n) = Some s' /\ at_pc s' i KWork.
Proof.
  intros R [p [N P]] F. pose proof (sane_run _ _ _ (sane_start log bad us) R) as SA.
  assert (NB : ~ In (lk_next s) (lk_bad s)).
  { assert (K : forall l s s', 0 < lk_next s -> incl (lk_bad s) [0] -> lk_run s l = Some s' -> 0 < lk_next s' /\ incl (lk_bad s') [0]).
    { clear. induction l as [|e l IH]; intros s s' B I R; cbn in R.
      - injection R as <-. auto.
      - destruct (lk_step s e) as [s1|] eqn:E; [|discriminate]. destruct (lk_step_inv _ _ _ E) as [j [q [q' [n [x [M [-> H]]]]]]].
        apply (IH _ _) in R; auto. cbn. destruct H as [[ok [_ H]]|[_ [_ [-> _]]]]; auto.
        destruct (call_name _ _ _ _ _ _ H) as [[_ ->]|[[_ [_ [-> _]]]|[_ [-> _]]]]; lia. }
    assert (K0 : 0 < lk_next (lk_start log bad us)) by reflexivity.
    assert (K1 : incl (lk_bad (lk_start log bad us)) [0]) by (cbn; destruct bad; intros y Y; [exact Y|contradiction]).
    destruct (K l _ s K0 K1 R) as [X Y].
    intros I. apply Y in I. destruct I as [I|[]]. lia. }
  apply (alone_gets_it s i p); auto.
  - destruct SA as [_ [_ [_ D]]]. specialize (D i p N). rewrite P in D. apply D.
  - intros f E. destruct (F f E) as [F1 F2]. split; [|exact F1].
    destruct (lk_taken s f) eqn:T; [|reflexivity]. unfold lk_taken in T. apply existsb_exists in T. destruct T as [r [I T]].
    apply In_nth_error in I. destruct I as [j J]. apply andb_true_iff in T. destruct T as [T1 T2].
    destruct (lk_fd r) as [g|] eqn:G; [|discriminate]. apply Z.eqb_eq in T2. subst g. rewrite (F2 j r J G) in T1. discriminate.
Qed.

(** ** Cases *)
Lemma two_work : exists l s, Forall fine l /\ lk_run (lk_start false false [(true, true); (true, true); (true, true)]) l = Some s /\
  works s 1 /\ works s 2 /\ lk_name s = Some 2.
Proof.
  exists (map (fun i => KStep i true) [0; 0; 0; 0; 0; 0; 0; 0; 1; 1; 1; 0; 2; 2; 2; 2; 2]%nat).
  eexists. split; [repeat constructor|]. split; [vm_compute; reflexivity|].
  split; [|split; [|reflexivity]]; left; eexists; cbn; split; reflexivity.
Qed.
Lemma two_invalid : exists l s, Forall fine l /\ lk_run (lk_start true true [(false, true); (false, true)]) l = Some s /\
  works s 0 /\ works s 1.
Proof.
  exists (map (fun i => KStep i true) [0; 0; 0; 0; 0; 1; 1; 1; 1; 1]%nat).
  eexists. split; [repeat constructor|]. split; [vm_compute; reflexivity|].
  split; right; eexists; cbn; split; reflexivity.
Qed.
Lemma exits_instead : exists l s, Forall fine l /\ lk_run (lk_start true false [(true, true); (false, true)]) l = Some s /\
  at_pc s 0 KDone /\ at_pc s 1 KExit.
Proof.
  exists (map (fun i => KStep i true) [0; 0; 0; 1; 1; 0; 0; 0; 0; 1]%nat).
  eexists. split; [repeat constructor|]. split; [vm_compute; reflexivity|].
  split; eexists; cbn; split; reflexivity.
Qed.
