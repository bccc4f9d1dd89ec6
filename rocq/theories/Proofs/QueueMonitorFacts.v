From Verif Require Import Model.QueueMonitor Spec.MonitorSpec.

Definition b2n (b : bool) : nat := if b then 1%nat else 0%nat.
Fixpoint tsum (f : tst -> nat) (l : list tst) : nat :=
  match l with [] => 0%nat | t :: r => (f t + tsum f r)%nat end.

Lemma tsum_list_sum f l : list_sum (map f l) = tsum f l.
Proof. induction l as [|t l IH]; [reflexivity|]. cbn [map tsum]. rewrite <- IH; reflexivity. Qed.

Lemma how_many_sum p l : how_many p l = tsum (fun t => b2n (p t)) l.
Proof.
  unfold how_many; induction l as [|t l IH]; cbn; [reflexivity|].
  destruct (p t); cbn; rewrite IH; reflexivity.
Qed.

Lemma tsum_set f l : forall i t x, nth_error l i = Some t ->
  (tsum f (set_nth l i x) + f t = tsum f l + f x)%nat.
Proof.
  induction l as [|a l IH]; intros [|i] t x H; cbn in H |- *; try discriminate.
  - injection H as <-; lia.
  - specialize (IH i t x H); lia.
Qed.

Lemma nth_set_same {A} (l : list A) : forall i t x, nth_error l i = Some t ->
  nth_error (set_nth l i x) i = Some x.
Proof. induction l as [|a l IH]; intros [|i] t x H; cbn in *; try discriminate; eauto. Qed.

Lemma nth_set_other {A} (l : list A) : forall i j x, i <> j ->
  nth_error (set_nth l i x) j = nth_error l j.
Proof. induction l as [|a l IH]; intros [|i] [|j] x H; cbn in *; try congruence; auto. Qed.

Lemma set_nth_length {A} (l : list A) : forall i x, length (set_nth l i x) = length l.
Proof. induction l as [|a l IH]; intros [|i] x; cbn; auto. Qed.

Lemma tsum_zero p l : tsum (fun t => b2n (p t)) l = 0%nat <-> (forall t, In t l -> p t = false).
Proof.
  induction l as [|a l IH]; cbn; [split; [intros _ t []|reflexivity]|].
  split.
  - intros E t [<-|H]; destruct (p a); cbn in E; try lia; try reflexivity.
    apply IH; [lia|exact H].
  - intros H; rewrite (H a (or_introl eq_refl)); cbn.
    apply IH; intros t Ht; apply H; right; exact Ht.
Qed.

Lemma tsum_pos p l t : In t l -> p t = true -> (0 < tsum (fun t => b2n (p t)) l)%nat.
Proof.
  induction l as [|a l IH]; intros Hin E; [contradiction|].
  cbn; destruct Hin as [<-|H]; [rewrite E; cbn; lia|specialize (IH H E); lia].
Qed.

Definition W := tsum (fun t => b2n (asleep t)).
Definition P := tsum (fun t => b2n (woken t)).
Definition N := tsum to_notify.
Definition is_enter (t : tst) : bool := match t with TEnter => true | _ => false end.
Definition ENT := tsum (fun t => b2n (is_enter t)).

(** Weight used for termination of internal runs. *)
Definition weight (t : tst) : nat :=
  match t with
  | TIdle => 0 | TEnter => 4 | TAsleep => 5 | TWoken => 4 | TOpening _ => 6 | TOpenedOk _ => 1
  | TOpenFailed => 5 | TGot _ => 0 | TNone _ => 0
  | TReturned k => 2 * k + 2 | TNotifying k => 2 * k + 1
  end.
Definition TW := tsum weight.

Definition wake_stable (f : tst -> nat) := f TAsleep = f TWoken.

Lemma tsum_notify_all f l : wake_stable f -> tsum f (notify_all l) = tsum f l.
Proof.
  intros Hf; unfold notify_all; induction l as [|a l IH]; cbn; [reflexivity|].
  rewrite IH; destruct a; cbn; auto; rewrite Hf; reflexivity.
Qed.

Lemma W_notify_all l : W (notify_all l) = 0%nat.
Proof. unfold W, notify_all; induction l as [|a l IH]; cbn; [reflexivity|]; destruct a; cbn; auto. Qed.

Lemma P_notify_all l : P (notify_all l) = (W l + P l)%nat.
Proof.
  unfold W, P, notify_all; induction l as [|a l IH]; cbn; [reflexivity|]; destruct a; cbn; lia.
Qed.

Lemma TW_notify_all l : (TW (notify_all l) + W l = TW l)%nat.
Proof.
  unfold W, TW, notify_all; induction l as [|a l IH]; cbn; [reflexivity|];
    destruct a; cbn; lia.
Qed.

Lemma nth_notify_all l i t : nth_error l i = Some t -> nth_error (notify_all l) i = Some (wake t).
Proof. intros H; unfold notify_all; rewrite nth_error_map, H; reflexivity. Qed.

Lemma asleep_spec t : asleep t = false <-> t <> TAsleep.
Proof. destruct t; cbn; split; congruence. Qed.

Lemma W_zero l : W l = 0%nat <-> (forall t, In t l -> t <> TAsleep).
Proof.
  unfold W; rewrite tsum_zero; split; intros H t Ht; specialize (H t Ht); apply asleep_spec; auto.
Qed.

Lemma notify_one_facts a b : notify_one a b ->
  (W b + P b = W a + P a)%nat /\ (W b = 0 \/ P b = P a + 1)%nat /\ (P a <= P b)%nat /\
  (TW b <= TW a)%nat /\
  (forall f, wake_stable f -> tsum f b = tsum f a) /\ length b = length a /\
  (forall i t, nth_error a i = Some t -> t <> TAsleep -> nth_error b i = Some t).
Proof.
  intros H; destruct H as [ths i Hi|ths Hn].
  - pose proof (tsum_set (fun t => b2n (asleep t)) ths i TAsleep TWoken Hi) as E1.
    pose proof (tsum_set (fun t => b2n (woken t)) ths i TAsleep TWoken Hi) as E2.
    pose proof (tsum_set weight ths i TAsleep TWoken Hi) as E3.
    cbn in E1, E2, E3; unfold W, P, TW.
    split; [lia|]; split; [right; lia|]; split; [lia|]; split; [lia|]; split; [|split].
    + intros f Hf; pose proof (tsum_set f ths i TAsleep TWoken Hi) as E4; rewrite Hf in E4; lia.
    + apply set_nth_length.
    + intros j t Hj Ht; destruct (Nat.eq_dec i j) as [<-|Hne]; [congruence|].
      rewrite nth_set_other by exact Hne; exact Hj.
  - apply W_zero in Hn; repeat split; auto; lia.
Qed.

Lemma notify_n_facts n a b : notify_n n a b ->
  (W b + P b = W a + P a)%nat /\ (W b = 0 \/ P b = P a + n)%nat /\ (P a <= P b)%nat /\
  (TW b <= TW a)%nat /\
  (forall f, wake_stable f -> tsum f b = tsum f a) /\ length b = length a /\
  (forall i t, nth_error a i = Some t -> t <> TAsleep -> nth_error b i = Some t).
Proof.
  induction 1 as [ths|n a b c H1 H2 IH].
  - repeat split; auto; lia.
  - apply notify_one_facts in H1.
    destruct H1 as (A1 & A2 & A3 & A4 & A5 & A6 & A7); destruct IH as (B1 & B2 & B3 & B4 & B5 & B6 & B7).
    split; [lia|]; split; [lia|]; split; [lia|]; split; [lia|]; split; [|split].
    + intros f Hf; rewrite B5, A5 by exact Hf; reflexivity.
    + congruence.
    + intros i t Hi Ht; apply B7; auto.
Qed.

Lemma smart_notify_facts c n a b : smart_notify c n a b ->
  (W b + P b = W a + P a)%nat /\ (W b = 0 \/ P b = P a + n)%nat /\ (P a <= P b)%nat /\
  (forall f, wake_stable f -> tsum f b = tsum f a) /\ length b = length a /\
  (forall i t, nth_error a i = Some t -> t <> TAsleep -> nth_error b i = Some t).
Proof.
  intros [ths Hc|x y Hc Hn].
  - rewrite W_notify_all, P_notify_all; split; [lia|]; split; [left; reflexivity|];
      split; [lia|]; split; [|split].
    + intros f Hf; apply tsum_notify_all; exact Hf.
    + apply map_length.
    + intros i t Hi Ht; rewrite (nth_notify_all _ _ _ Hi); destruct t; cbn; congruence.
  - apply notify_n_facts in Hn; destruct Hn as (A1 & A2 & A3 & A4 & A5 & A6 & A7); repeat split; auto.
Qed.

Lemma smart_notifies_facts c l a b : smart_notifies c l a b ->
  (W b + P b = W a + P a)%nat /\
  (forall f, wake_stable f -> tsum f b = tsum f a) /\ length b = length a.
Proof.
  induction 1 as [ths|k l a b d H1 H2 IH]; [auto|].
  apply smart_notify_facts in H1; destruct H1 as (A1 & _ & _ & A4 & A5 & _); destruct IH as (B1 & B2 & B3).
  split; [lia|]; split; [|congruence].
  intros f Hf; rewrite B2, A4 by exact Hf; reflexivity.
Qed.

Lemma ws_N : wake_stable to_notify. Proof. reflexivity. Qed.
Lemma ws_ENT : wake_stable (fun t => b2n (is_enter t)).
Proof. reflexivity. Qed.

(** The monitor invariant. *)
Definition minv (n : nat) (m : mon) : Prop :=
  (W (m_threads m) = 0 \/ m_q m <= P (m_threads m) + N (m_threads m))%nat /\
  (m_init m = true -> (0 < W (m_threads m))%nat -> (0 < m_q m)%nat) /\
  m_waiters m = Z.of_nat (W (m_threads m) + P (m_threads m)) /\
  (m_called m = false -> W (m_threads m) = 0%nat) /\
  (m_called m = false -> P (m_threads m) = 0%nat) /\
  (m_called m = false -> ENT (m_threads m) = 0%nat) /\
  (m_called m = false -> forall t, In t (m_threads m) -> t <> TOpenFailed /\ forall b, t <> TOpening b) /\
  length (m_threads m) = n.

Lemma in_set_nth {A} (l : list A) : forall i x t, In t (set_nth l i x) -> t = x \/ In t l.
Proof.
  induction l as [|a l IH]; intros [|i] x t H; cbn in *; intuition auto.
  apply IH in H0; intuition auto.
Qed.

Lemma W_set l i t x : nth_error l i = Some t ->
  (W (set_nth l i x) + b2n (asleep t) = W l + b2n (asleep x))%nat.
Proof. intros H; apply (tsum_set (fun t => b2n (asleep t)) l i t x H). Qed.
Lemma P_set l i t x : nth_error l i = Some t ->
  (P (set_nth l i x) + b2n (woken t) = P l + b2n (woken x))%nat.
Proof. intros H; apply (tsum_set (fun t => b2n (woken t)) l i t x H). Qed.
Lemma N_set l i t x : nth_error l i = Some t ->
  (N (set_nth l i x) + to_notify t = N l + to_notify x)%nat.
Proof. intros H; apply (tsum_set to_notify l i t x H). Qed.
Lemma ENT_set l i t x : nth_error l i = Some t ->
  (ENT (set_nth l i x) + b2n (is_enter t) = ENT l + b2n (is_enter x))%nat.
Proof. intros H; apply (tsum_set (fun t => b2n (is_enter t)) l i t x H). Qed.
Lemma TW_set l i t x : nth_error l i = Some t ->
  (TW (set_nth l i x) + weight t = TW l + weight x)%nat.
Proof. intros H; apply (tsum_set weight l i t x H). Qed.

Ltac setfacts H x :=
  let E := fresh "E" in
  pose proof (W_set _ _ _ x H) as E; cbn [b2n asleep] in E;
  let E := fresh "E" in
  pose proof (P_set _ _ _ x H) as E; cbn [b2n woken] in E;
  let E := fresh "E" in
  pose proof (N_set _ _ _ x H) as E; cbn [to_notify] in E;
  let E := fresh "E" in
  pose proof (ENT_set _ _ _ x H) as E; cbn [b2n is_enter] in E.

Ltac inv8 :=
  unfold minv, with_threads; cbn [m_threads m_q m_init m_waiters m_called];
  split; [|split; [|split; [|split; [|split; [|split; [|split]]]]]].
Ltac fin I4 I5 I6 I7 :=
  inv8; try rewrite set_nth_length; try lia; try (intros X; congruence);
  try (let X := fresh in let Y := fresh in intros X Y;
       match goal with I : _ = true -> _ -> (0 < m_q _)%nat |- _ => specialize (I X); lia end);
  try (intros X; specialize (I4 X); specialize (I5 X); specialize (I6 X); lia);
  try (let X := fresh in let t := fresh in let Ht := fresh in
       intros X t Ht; apply in_set_nth in Ht; destruct Ht as [->|Ht];
       [split; congruence|exact (I7 X t Ht)]).

Lemma notify_all_N l : N (notify_all l) = N l.
Proof. apply (tsum_notify_all to_notify); reflexivity. Qed.
Lemma notify_all_ENT l : ENT (notify_all l) = ENT l.
Proof. apply (tsum_notify_all (fun t => b2n (is_enter t))); reflexivity. Qed.

(** [take] executed by a thread that is woken, or has just entered and counted
    itself: stated on a state in which the thread is shown as [TWoken]. *)
Lemma take_inv n m i :
  nth_error (m_threads m) i = Some TWoken -> minv n m -> m_called m = true -> minv n (take m i).
Proof.
  intros Hi (I1 & I2 & I3 & I4 & I5 & I6 & I7 & I8) Hc; unfold take.
  pose proof (tsum_pos woken (m_threads m) TWoken (nth_error_In _ _ Hi) eq_refl) as Hp; fold P in Hp.
  destruct (Nat.eqb_spec (m_q m) 0) as [Hq|Hq]; destruct (m_init m) eqn:Ei; cbn [andb negb].
  - setfacts Hi (TNone (m_failed m)).
    fin I4 I5 I6 I7.
  - setfacts Hi TAsleep.
    fin I4 I5 I6 I7.
  - destruct (Nat.eqb_spec (Nat.pred (m_q m)) 0) as [Hq'|Hq']; cbn [andb].
    + assert (Hi' : nth_error (notify_all (m_threads m)) i = Some TWoken)
        by (rewrite (nth_notify_all _ _ _ Hi); reflexivity).
      setfacts Hi' (TOpening (m_failed m)).
      pose proof (W_notify_all (m_threads m)); pose proof (P_notify_all (m_threads m)).
      pose proof (notify_all_N (m_threads m)).
      fin I4 I5 I6 I7.
      unfold notify_all; rewrite map_length; exact I8.
    + setfacts Hi (TOpening (m_failed m)).
      fin I4 I5 I6 I7.
  - rewrite andb_false_r; setfacts Hi (TOpening (m_failed m)).
      fin I4 I5 I6 I7.
Qed.

Lemma set_set {A} (l : list A) : forall i x y, set_nth (set_nth l i x) i y = set_nth l i y.
Proof. induction l as [|a l IH]; intros [|i] x y; cbn; auto; rewrite IH; reflexivity. Qed.

Lemma map_set_nth (l : list tst) : forall i x y, set_nth (map wake (set_nth l i x)) i y = set_nth (map wake l) i y.
Proof. induction l as [|a l IH]; intros [|i] x y; cbn; auto; rewrite IH; reflexivity. Qed.

(** An entering thread behaves as a woken one that counted itself. *)
Lemma take_enter m i w :
  take {| m_clients := m_clients m; m_q := m_q m; m_init := m_init m; m_waiters := w;
          m_deq := m_deq m; m_failed := m_failed m; m_called := m_called m;
          m_threads := m_threads m |} i =
  take {| m_clients := m_clients m; m_q := m_q m; m_init := m_init m; m_waiters := w;
          m_deq := m_deq m; m_failed := m_failed m; m_called := m_called m;
          m_threads := set_nth (m_threads m) i TWoken |} i.
Proof.
  unfold take; cbn [m_clients m_q m_init m_waiters m_deq m_failed m_called m_threads].
  rewrite !set_set.
  destruct (Nat.eqb (m_q m) 0); destruct (m_init m); cbn [andb negb]; try reflexivity.
  - f_equal; destruct (_ && _); [unfold notify_all; rewrite map_set_nth; reflexivity|].
    rewrite set_set; reflexivity.
  - rewrite andb_false_r, set_set; reflexivity.
Qed.

Lemma called_of_enter n m i : minv n m -> nth_error (m_threads m) i = Some TEnter -> m_called m = true.
Proof.
  intros (_ & _ & _ & _ & _ & I6 & _) Hi; destruct (m_called m); [reflexivity|].
  pose proof (tsum_pos is_enter (m_threads m) TEnter
    (nth_error_In _ _ Hi) eq_refl) as Hp; fold ENT in Hp; specialize (I6 eq_refl); lia.
Qed.

Lemma called_of_woken n m i : minv n m -> nth_error (m_threads m) i = Some TWoken -> m_called m = true.
Proof.
  intros (_ & _ & _ & _ & I5 & _) Hi; destruct (m_called m); [reflexivity|].
  pose proof (tsum_pos woken (m_threads m) TWoken
    (nth_error_In _ _ Hi) eq_refl) as Hp; fold P in Hp; specialize (I5 eq_refl); lia.
Qed.

Lemma minv_mint n m m' : minv n m -> mint m m' -> minv n m'.
Proof.
  intros Hinv Hs; pose proof Hinv as (I1 & I2 & I3 & I4 & I5 & I6 & I7 & I8).
  destruct Hs as [m i Hi|m i Hi|m i b Hi|m i b Hi|m i b Hi|m i Hi|m i k Hi Hk|m i k Hi Hk|m i k ths Hi Hn|m i Hi].
  - rewrite take_enter; pose proof (called_of_enter n m i Hinv Hi) as Hc.
    apply take_inv; [cbn [m_threads]; eapply nth_set_same; exact Hi| |exact Hc].
    setfacts Hi TWoken.
    fin I4 I5 I6 I7.
  - apply take_inv; [exact Hi|exact Hinv|apply (called_of_woken n m i Hinv Hi)].
  - setfacts Hi (TOpenedOk b).
    fin I4 I5 I6 I7.
  - destruct (m_called m) eqn:Ec.
    + setfacts Hi TOpenFailed; unfold with_threads.
      fin I4 I5 I6 I7.
    + exfalso; apply nth_error_In in Hi; destruct (I7 eq_refl _ Hi); congruence.
  - setfacts Hi (TGot b).
    fin I4 I5 I6 I7.
  - destruct (m_called m) eqn:Ec.
    + setfacts Hi TEnter.
      fin I4 I5 I6 I7.
    + exfalso; apply nth_error_In in Hi; destruct (I7 eq_refl _ Hi); congruence.
  - assert (Hi' : nth_error (notify_all (m_threads m)) i = Some (TReturned k))
      by (rewrite (nth_notify_all _ _ _ Hi); reflexivity).
    setfacts Hi' TIdle; unfold with_threads.
    pose proof (W_notify_all (m_threads m)); pose proof (P_notify_all (m_threads m)).
    pose proof (notify_all_ENT (m_threads m)).
    assert (I7' : m_called m = false -> forall t, In t (notify_all (m_threads m)) ->
        t <> TOpenFailed /\ forall b, t <> TOpening b)
      by (intros X t Ht; unfold notify_all in Ht; apply in_map_iff in Ht; destruct Ht as (u & <- & Hu);
          destruct (I7 X u Hu); destruct u; cbn; split; congruence).
    fin I4 I5 I6 I7'.
    unfold notify_all; rewrite map_length; exact I8.
  - setfacts Hi (TNotifying k).
    fin I4 I5 I6 I7.
  - apply notify_one_facts in Hn; destruct Hn as (A1 & A2 & A3 & A4 & A5 & A6 & A7).
    assert (Hi' : nth_error ths i = Some (TNotifying (S k))) by (apply A7; [exact Hi|discriminate]).
    setfacts Hi' (TNotifying k); unfold with_threads.
    pose proof (A5 to_notify ws_N) as B1; fold N in B1.
    pose proof (A5 _ ws_ENT) as B2; fold ENT in B2.
    assert (I7' : m_called m = false -> forall t, In t ths -> t <> TOpenFailed /\ forall b, t <> TOpening b).
    { intros Hc t Ht; apply In_nth_error in Ht; destruct Ht as [j Hj].
      destruct (nth_error (m_threads m) j) as [u|] eqn:Eu.
      - destruct (I7 Hc u (nth_error_In _ _ Eu)) as [U1 U2].
        assert (D : u = TAsleep \/ u <> TAsleep) by (destruct u; auto; right; congruence).
        destruct D as [->|D].
        + exfalso; assert (W (m_threads m) = 0%nat) as Hw by auto.
          apply W_zero with (t := TAsleep) in Hw; [congruence|exact (nth_error_In _ _ Eu)].
        + rewrite (A7 j u Eu D) in Hj; injection Hj as <-; auto.
      - apply nth_error_None in Eu; assert (nth_error ths j <> None) as Hx by congruence.
        apply nth_error_Some in Hx; lia. }
    fin I4 I5 I6 I7'.
  - setfacts Hi TIdle.
    fin I4 I5 I6 I7.
Qed.

Lemma smart_keep c k a b : smart_notify c k a b -> W a = 0%nat ->
  forall t, In t b -> In t a.
Proof.
  intros H Hw t Ht; pose proof (smart_notify_facts _ _ _ _ H) as (A1 & _ & _ & _ & A5 & A6).
  apply In_nth_error in Ht; destruct Ht as [j Hj].
  destruct (nth_error a j) as [u|] eqn:Eu.
  - assert (u <> TAsleep) as D by (apply W_zero with (t := u) in Hw; [exact Hw|exact (nth_error_In _ _ Eu)]).
    rewrite (A6 j u Eu D) in Hj; injection Hj as <-; exact (nth_error_In _ _ Eu).
  - apply nth_error_None in Eu; assert (nth_error b j <> None) as Hx by congruence.
    apply nth_error_Some in Hx; lia.
Qed.

Lemma smart_W0 c k a b : smart_notify c k a b -> W a = 0%nat -> W b = 0%nat /\ P b = P a.
Proof. intros H Hw; apply smart_notify_facts in H; lia. Qed.

Lemma smarts_keep c l a b : smart_notifies c l a b -> W a = 0%nat ->
  W b = 0%nat /\ P b = P a /\ forall t, In t b -> In t a.
Proof.
  induction 1 as [ths|k l a b d H1 H2 IH]; intros Hw; [auto|].
  destruct (smart_W0 _ _ _ _ H1 Hw) as [Hb Hp]; destruct (IH Hb) as (B1 & B2 & B3).
  split; [exact B1|]; split; [congruence|]; intros t Ht; apply (smart_keep _ _ _ _ H1 Hw); auto.
Qed.

Lemma minv_mext n m m' : minv n m -> mext m m' -> minv n m'.
Proof.
  intros Hinv Hs; pose proof Hinv as (I1 & I2 & I3 & I4 & I5 & I6 & I7 & I8).
  destruct Hs as [m k ths Hini Hn|m Hini|m k ths Hini Hn|m ks d m' Hc Hr|m i Hi|m i b Hi|m i k Hi Hk|m i Hi].
  - pose proof (smart_notify_facts _ _ _ _ Hn) as (A1 & A2 & A3 & A4 & A5 & A6).
    pose proof (A4 to_notify ws_N) as B1; fold N in B1.
    pose proof (A4 _ ws_ENT) as B2; fold ENT in B2.
    fin I4 I5 I6 I7.
    intros X t Ht; apply (smart_keep _ _ _ _ Hn (I4 X)) in Ht; apply (I7 X t Ht).
  - inv8; assumption.
  - pose proof (smart_notify_facts _ _ _ _ Hn) as (A1 & A2 & A3 & A4 & A5 & A6).
    pose proof (A4 to_notify ws_N) as B1; fold N in B1.
    pose proof (A4 _ ws_ENT) as B2; fold ENT in B2.
    pose proof (W_notify_all ths); pose proof (P_notify_all ths).
    pose proof (notify_all_ENT ths); pose proof (notify_all_N ths).
    assert (I7' : m_called m = false -> forall t, In t ths -> t <> TOpenFailed /\ forall b, t <> TOpening b)
      by (intros X t Ht; apply (I7 X t), (smart_keep _ _ _ _ Hn (I4 X)), Ht).
    assert (I7'' : m_called m = false -> forall t, In t (notify_all ths) ->
        t <> TOpenFailed /\ forall b, t <> TOpening b)
      by (intros X t Ht; unfold notify_all in Ht; apply in_map_iff in Ht; destruct Ht as (u & <- & Hu);
          destruct (I7' X u Hu); destruct u; cbn; split; congruence).
    destruct (Nat.eqb_spec (m_q m + k) 0) as [Hq|Hq]; fin I4 I5 I6 I7; auto.
    unfold notify_all; rewrite map_length; lia.
  - destruct Hr as (Hd & Hdel & a & b & H1 & H2 & ->).
    pose proof (I4 Hc) as Hw; pose proof (I5 Hc) as Hp; pose proof (I6 Hc) as He.
    destruct (smarts_keep _ _ _ _ H1 Hw) as (A1 & A2 & A3).
    destruct (smart_W0 _ _ _ _ H2 A1) as [B1 B2].
    pose proof (smart_keep _ _ _ _ H2 A1) as B3.
    pose proof (smart_notify_facts _ _ _ _ H2) as (C1 & C2 & C3 & C4 & C5 & C6).
    apply smart_notifies_facts in H1; destruct H1 as (D1 & D2 & D3).
    pose proof (C4 _ ws_ENT) as E1; fold ENT in E1; pose proof (D2 _ ws_ENT) as E2; fold ENT in E2.
    inv8; try lia; intros X t Ht; apply (I7 Hc); auto.
  - setfacts Hi TEnter.
    fin I4 I5 I6 I7.
  - destruct Hi as [Hi|Hi]; setfacts Hi TIdle; fin I4 I5 I6 I7.
  - setfacts Hi (TReturned k).
    fin I4 I5 I6 I7.
  - setfacts Hi TWoken; unfold with_threads.
    assert (Hw : (0 < W (m_threads m))%nat)
      by (apply (tsum_pos asleep (m_threads m) TAsleep (nth_error_In _ _ Hi) eq_refl)).
    fin I4 I5 I6 I7.
Qed.

Lemma W_repeat n : W (repeat TIdle n) = 0%nat.
Proof. unfold W; induction n; cbn; auto. Qed.

Lemma minv_reach c n m : mreach c n m -> minv n m.
Proof.
  induction 1 as [|m m' Hr IH [Hs|Hs]].
  - unfold minv, mon_init; cbn [m_threads m_q m_init m_waiters m_called].
    assert (W (repeat TIdle n) = 0 /\ P (repeat TIdle n) = 0 /\ ENT (repeat TIdle n) = 0)%nat as (E1 & E2 & E3)
      by (unfold W, P, ENT; induction n; cbn; auto).
    rewrite E1, E2, E3, repeat_length; cbn.
    inv8; auto; try lia; intros _ t Ht; apply repeat_spec in Ht; subst; split; congruence.
  - eapply minv_mint; eassumption.
  - eapply minv_mext; eassumption.
Qed.

(** * The claims *)

Lemma no_sleep_with_unclaimed_block c n m : mreach c n m ->
  (exists t, In t (m_threads m) /\ asleep t = true) ->
  (m_q m <= how_many woken (m_threads m) + total_to_notify (m_threads m))%nat.
Proof.
  intros Hr (t & Hin & Ht); apply minv_reach in Hr; destruct Hr as ([Hw|Hle] & _).
  - pose proof (tsum_pos asleep _ _ Hin Ht) as Hp; fold W in Hp; lia.
  - rewrite how_many_sum; unfold total_to_notify; rewrite tsum_list_sum; exact Hle.
Qed.

Lemma no_sleep_at_end c n m : mreach c n m -> m_init m = true -> m_q m = 0%nat ->
  forall t, In t (m_threads m) -> asleep t = false.
Proof.
  intros Hr Hi Hq; apply minv_reach in Hr; destruct Hr as (_ & I2 & _).
  apply tsum_zero; fold W; specialize (I2 Hi); lia.
Qed.

Lemma take_answer m i b : (i < length (m_threads m))%nat ->
  nth_error (m_threads (take m i)) i = Some (TNone b) ->
  m_init m = true /\ m_q m = 0%nat /\ b = m_failed m.
Proof.
  intros Hl; unfold take.
  assert (Hx : forall (l : list tst) x, (i < length l)%nat -> nth_error (set_nth l i x) i = Some x).
  { intros l x H; destruct (nth_error l i) as [y|] eqn:E;
      [exact (nth_set_same l i y x E)|apply nth_error_None in E; lia]. }
  destruct (Nat.eqb_spec (m_q m) 0) as [Hq|Hq]; destruct (m_init m) eqn:Ei; cbn [andb negb m_threads];
    try (rewrite (Hx (m_threads m)) by exact Hl; intros E; try discriminate E).
  - injection E as <-; auto.
  - rewrite Hx; [discriminate|].
    destruct (_ && _); [unfold notify_all; rewrite map_length|]; exact Hl.
  - rewrite andb_false_r, Hx; [discriminate|exact Hl].
Qed.

Lemma take_other m i j t : i <> j -> nth_error (m_threads (take m i)) j = Some t ->
  exists u, nth_error (m_threads m) j = Some u /\ (t = u \/ t = wake u).
Proof.
  intros Hne; unfold take.
  destruct (Nat.eqb (m_q m) 0); destruct (m_init m); cbn [andb negb m_threads];
    try rewrite nth_set_other by exact Hne; intros E; try (exists t; auto; fail).
  - destruct (_ && _); [|exists t; auto].
    unfold notify_all in E; rewrite nth_error_map in E.
    destruct (nth_error (m_threads m) j) as [u|]; [|discriminate].
    injection E as <-; exists u; auto.
  - rewrite andb_false_r in E; exists t; auto.
Qed.

Lemma notify_one_other a b j t : notify_one a b -> nth_error b j = Some t ->
  exists u, nth_error a j = Some u /\ (t = u \/ t = wake u).
Proof.
  intros [ths i Hi|ths Hn] E; [|exists t; auto].
  destruct (Nat.eq_dec i j) as [<-|Hne].
  - rewrite (nth_set_same _ _ _ _ Hi) in E; injection E as <-; exists TAsleep; auto.
  - rewrite nth_set_other in E by exact Hne; exists t; auto.
Qed.

Lemma notify_n_other k a b : notify_n k a b -> forall j t, nth_error b j = Some t ->
  exists u, nth_error a j = Some u /\ (t = u \/ t = wake u).
Proof.
  induction 1 as [ths|k a b c H1 H2 IH]; intros j t E; [exists t; auto|].
  destruct (IH j t E) as (u & Eu & Hu).
  destruct (notify_one_other _ _ j u H1 Eu) as (v & Ev & Hv); exists v; split; [exact Ev|].
  destruct v, Hu as [->| ->], Hv as [->| ->]; cbn; auto.
Qed.

Lemma smart_other c k a b : smart_notify c k a b -> forall j t, nth_error b j = Some t ->
  exists u, nth_error a j = Some u /\ (t = u \/ t = wake u).
Proof.
  intros [ths Hc|x y Hc Hn] j t E.
  - unfold notify_all in E; rewrite nth_error_map in E.
    destruct (nth_error ths j) as [u|]; [|discriminate]; injection E as <-; exists u; auto.
  - eapply notify_n_other; eassumption.
Qed.

Lemma smarts_other c l a b : smart_notifies c l a b -> forall j t, nth_error b j = Some t ->
  exists u, nth_error a j = Some u /\ (t = u \/ t = wake u).
Proof.
  induction 1 as [ths|k l a b d H1 H2 IH]; intros j t E; [exists t; auto|].
  destruct (IH j t E) as (u & Eu & Hu).
  destruct (smart_other _ _ _ _ H1 j u Eu) as (v & Ev & Hv); exists v; split; [exact Ev|].
  destruct v, Hu as [->| ->], Hv as [->| ->]; cbn; auto.
Qed.

Lemma not_none_wake t u b : (t = u \/ t = wake u) -> t = TNone b -> u = TNone b.
Proof. intros [->| ->] E; [exact E|destruct u; cbn in *; congruence]. Qed.

Lemma nth_set_cases {A} (l : list A) i j x t : nth_error (set_nth l i x) j = Some t ->
  (i = j /\ t = x) \/ (i <> j /\ nth_error l j = Some t).
Proof.
  intros E; destruct (Nat.eq_dec i j) as [<-|Hne].
  - left; split; [reflexivity|].
    revert i E; induction l as [|a l IH]; intros [|i] E; cbn in E; try discriminate; [congruence|eauto].
  - right; split; [exact Hne|]; rewrite nth_set_other in E by exact Hne; exact E.
Qed.

(** 'No more' only when discovery has finished and the queue is empty. *)
Lemma no_more_only_at_end m m' j b : mstep m m' ->
  nth_error (m_threads m') j = Some (TNone b) ->
  nth_error (m_threads m) j <> Some (TNone b) ->
  m_init m = true /\ m_q m = 0%nat /\ b = m_failed m /\
  (nth_error (m_threads m) j = Some TEnter \/ nth_error (m_threads m) j = Some TWoken).
Proof.
  intros Hs E Hne; destruct Hs as [Hs|Hs];
    [destruct Hs as [m i Hi|m i Hi|m i b1 Hi|m i b1 Hi|m i b1 Hi|m i Hi|m i k Hi Hk|m i k Hi Hk|m i k ths Hi Hn|m i Hi]
    |destruct Hs as [m k ths Hini Hn|m Hini|m k ths Hini Hn|m ks d m' Hc Hr|m i Hi|m i b' Hi|m i k Hi Hk|m i Hi]];
    cbn [m_threads with_threads] in E.
  - destruct (Nat.eq_dec i j) as [<-|Hij].
    + apply take_answer in E; [|cbn [m_threads]; apply nth_error_Some; congruence].
      cbn [m_init m_q m_failed] in E; intuition auto.
    + destruct (take_other _ _ _ _ Hij E) as (u & Eu & Hu); cbn [m_threads] in Eu.
      apply (not_none_wake _ _ b) in Hu; [subst; congruence|reflexivity].
  - destruct (Nat.eq_dec i j) as [<-|Hij].
    + apply take_answer in E; [|cbn [m_threads]; apply nth_error_Some; congruence]; intuition auto.
    + destruct (take_other _ _ _ _ Hij E) as (u & Eu & Hu).
      apply (not_none_wake _ _ b) in Hu; [subst; congruence|reflexivity].
  - apply nth_set_cases in E; destruct E as [[_ E]|[_ E]]; [discriminate|congruence].
  - apply nth_set_cases in E; destruct E as [[_ E]|[_ E]]; [discriminate|congruence].
  - apply nth_set_cases in E; destruct E as [[_ E]|[_ E]]; [discriminate|congruence].
  - apply nth_set_cases in E; destruct E as [[_ E]|[_ E]]; [discriminate|congruence].
  - apply nth_set_cases in E; destruct E as [[_ E]|[_ E]]; [discriminate|].
    unfold notify_all in E; rewrite nth_error_map in E.
    destruct (nth_error (m_threads m) j) as [u|]; [|discriminate]; cbn in E.
    destruct u; cbn in E; congruence.
  - apply nth_set_cases in E; destruct E as [[_ E]|[_ E]]; [discriminate|congruence].
  - apply nth_set_cases in E; destruct E as [[_ E]|[_ E]]; [discriminate|].
    destruct (notify_one_other _ _ _ _ Hn E) as (u & Eu & Hu).
    apply (not_none_wake _ _ b) in Hu; [subst; congruence|reflexivity].
  - apply nth_set_cases in E; destruct E as [[_ E]|[_ E]]; [discriminate|congruence].
  - destruct (smart_other _ _ _ _ Hn _ _ E) as (u & Eu & Hu).
    apply (not_none_wake _ _ b) in Hu; [subst; congruence|reflexivity].
  - congruence.
  - assert (exists u, nth_error ths j = Some u /\ (TNone b = u \/ TNone b = wake u)) as (u & Eu & Hu).
    { destruct (Nat.eqb _ _); [|exists (TNone b); auto].
      unfold notify_all in E; rewrite nth_error_map in E.
      destruct (nth_error ths j) as [u|]; [|discriminate]; cbn in E; injection E as E; exists u; auto. }
    apply (not_none_wake _ _ b) in Hu; [subst u|reflexivity].
    destruct (smart_other _ _ _ _ Hn _ _ Eu) as (v & Ev & Hv).
    apply (not_none_wake _ _ b) in Hv; [subst; congruence|reflexivity].
  - destruct Hr as (Hd & Hdel & a & b0 & H1 & H2 & ->); cbn [m_threads] in E.
    destruct (smart_other _ _ _ _ H2 _ _ E) as (u & Eu & Hu).
    apply (not_none_wake _ _ b) in Hu; [subst u|reflexivity].
    destruct (smarts_other _ _ _ _ H1 _ _ Eu) as (v & Ev & Hv).
    apply (not_none_wake _ _ b) in Hv; [subst; congruence|reflexivity].
  - apply nth_set_cases in E; destruct E as [[_ E]|[_ E]]; [discriminate|congruence].
  - apply nth_set_cases in E; destruct E as [[_ E]|[_ E]]; [discriminate|congruence].
  - apply nth_set_cases in E; destruct E as [[_ E]|[_ E]]; [discriminate|congruence].
  - apply nth_set_cases in E; destruct E as [[_ E]|[_ E]]; [discriminate|congruence].
Qed.

(** Nothing left to run: no sleeper after discovery, and before it only for want
    of blocks. *)
Lemma stuck_means_answered c n m : mreach c n m -> (forall m', ~ mint m m') ->
  (forall t, In t (m_threads m) -> asking t = true -> t = TAsleep /\ m_init m = false /\ m_q m = 0%nat) /\
  (forall t, In t (m_threads m) -> (forall b, t <> TOpening b) /\ (forall b, t <> TOpenedOk b) /\ t <> TOpenFailed) /\
  total_to_notify (m_threads m) = 0%nat.
Proof.
  intros Hr Hst; pose proof (minv_reach _ _ _ Hr) as (I1 & I2 & _).
  assert (Hnt : forall t, In t (m_threads m) ->
      t <> TEnter /\ t <> TWoken /\ (forall b, t <> TOpening b) /\ (forall b, t <> TOpenedOk b) /\ t <> TOpenFailed /\
      to_notify t = 0%nat).
  { intros t Ht; apply In_nth_error in Ht; destruct Ht as [i Hi].
    destruct t as [| | | |b|b| |b|b|k|k]; repeat split; try congruence; intros; exfalso.
    - exact (Hst _ (MEnter m i Hi)).
    - exact (Hst _ (MWake m i Hi)).
    - exact (Hst _ (MOpenOk m i b Hi)).
    - exact (Hst _ (MOpened m i b Hi)).
    - exact (Hst _ (MFailed m i Hi)).
    - destruct (Nat.le_gt_cases (m_clients m) k) as [H|H].
      + exact (Hst _ (MSmartAll m i k Hi H)).
      + exact (Hst _ (MSmartSome m i k Hi H)).
    - destruct k as [|k]; [exact (Hst _ (MNotifyEnd m i Hi))|].
      destruct (in_dec (fun a b : bool => bool_dec a b) true (map asleep (m_threads m))) as [Hin|Hin].
      + apply in_map_iff in Hin; destruct Hin as (u & Hu & Hin).
        apply In_nth_error in Hin; destruct Hin as [j Hj].
        destruct u; try discriminate.
        exact (Hst _ (MNotifyOne m i k _ Hi (N1_wake _ j Hj))).
      + refine (Hst _ (MNotifyOne m i k (m_threads m) Hi (N1_lost _ _))).
        intros t Ht Ha; apply Hin, in_map_iff; exists t; subst t; auto. }
  assert (HN : total_to_notify (m_threads m) = 0%nat).
  { unfold total_to_notify; rewrite tsum_list_sum; clear - Hnt.
    induction (m_threads m) as [|t l IH]; cbn; [reflexivity|].
    destruct (Hnt t (or_introl eq_refl)) as (_ & _ & _ & _ & _ & ->).
    apply IH; intros u Hu; apply Hnt; right; exact Hu. }
  assert (HP : P (m_threads m) = 0%nat).
  { apply tsum_zero; intros t Ht; destruct (Hnt t Ht) as (_ & H & _); destruct t; cbn; congruence. }
  split; [|split; [intros t Ht; destruct (Hnt t Ht) as (_ & _ & A & B & C & _); auto|exact HN]].
  intros t Ht Ha; destruct (Hnt t Ht) as (A & B & _).
  destruct t; try discriminate; try congruence.
  assert (Hw : (0 < W (m_threads m))%nat) by (apply (tsum_pos asleep _ TAsleep Ht eq_refl)).
  assert (Hq : m_q m = 0%nat).
  { destruct I1 as [I1|I1]; [lia|]; unfold total_to_notify in HN; rewrite tsum_list_sum in HN; unfold N in I1; lia. }
  repeat split; auto; destruct (m_init m); [specialize (I2 eq_refl Hw); lia|reflexivity].
Qed.

(** Internal runs are finite once discovery has finished. *)
Definition size_of (m : mon) : nat := (10 * m_q m + TW (m_threads m))%nat.

Lemma mint_init m m' : mint m m' -> m_init m' = m_init m.
Proof.
  destruct 1; unfold take, with_threads; cbn; auto;
    repeat match goal with |- context [if ?c then _ else _] => destruct c end; reflexivity.
Qed.

Lemma take_size m i t : nth_error (m_threads m) i = Some t -> (t = TEnter \/ t = TWoken) ->
  m_init m = true -> (size_of (take m i) < size_of m)%nat.
Proof.
  intros Hi Ht Hini; assert (Hw : weight t = 4%nat) by (destruct Ht as [->| ->]; reflexivity).
  unfold take, size_of; rewrite Hini; cbn [negb]; rewrite andb_false_r, andb_true_r.
  destruct (Nat.eqb_spec (m_q m) 0) as [Hq|Hq]; cbn [m_q m_threads].
  - pose proof (TW_set _ _ _ (TNone (m_failed m)) Hi) as E; cbn [weight] in E; lia.
  - destruct (Nat.eqb (Nat.pred (m_q m)) 0).
    + assert (Hi' : nth_error (notify_all (m_threads m)) i = Some t)
        by (rewrite (nth_notify_all _ _ _ Hi); destruct Ht as [->| ->]; reflexivity).
      pose proof (TW_set _ _ _ (TOpening (m_failed m)) Hi') as E; cbn [weight] in E.
      pose proof (TW_notify_all (m_threads m)); lia.
    + pose proof (TW_set _ _ _ (TOpening (m_failed m)) Hi) as E; cbn [weight] in E; lia.
Qed.

Lemma mint_size m m' : mint m m' -> m_init m = true -> (size_of m' < size_of m)%nat.
Proof.
  intros Hs Hini.
  destruct Hs as [m i Hi|m i Hi|m i b Hi|m i b Hi|m i b Hi|m i Hi|m i k Hi Hk|m i k Hi Hk|m i k ths Hi Hn|m i Hi].
  - eapply Nat.lt_le_trans; [eapply take_size; [exact Hi|auto|exact Hini]|].
    unfold size_of; cbn [m_q m_threads]; lia.
  - eapply take_size; [exact Hi|auto|exact Hini].
  - pose proof (TW_set _ _ _ (TOpenedOk b) Hi) as E; cbn [weight] in E.
    unfold size_of, with_threads; cbn [m_q m_threads]; lia.
  - pose proof (TW_set _ _ _ TOpenFailed Hi) as E; cbn [weight] in E.
    unfold size_of, with_threads; cbn [m_q m_threads]; lia.
  - pose proof (TW_set _ _ _ (TGot b) Hi) as E; cbn [weight] in E.
    unfold size_of; cbn [m_q m_threads]; lia.
  - pose proof (TW_set _ _ _ TEnter Hi) as E; cbn [weight] in E.
    unfold size_of; cbn [m_q m_threads]; lia.
  - assert (Hi' : nth_error (notify_all (m_threads m)) i = Some (TReturned k))
        by (rewrite (nth_notify_all _ _ _ Hi); reflexivity).
    pose proof (TW_set _ _ _ TIdle Hi') as E; cbn [weight] in E.
    pose proof (TW_notify_all (m_threads m)).
    unfold size_of, with_threads; cbn [m_q m_threads]; lia.
  - pose proof (TW_set _ _ _ (TNotifying k) Hi) as E; cbn [weight] in E.
    unfold size_of, with_threads; cbn [m_q m_threads]; lia.
  - apply notify_one_facts in Hn; destruct Hn as (A1 & A2 & A3 & A4 & A5 & A6 & A7).
    assert (Hi' : nth_error ths i = Some (TNotifying (S k))) by (apply A7; [exact Hi|discriminate]).
    pose proof (TW_set _ _ _ (TNotifying k) Hi') as E; cbn [weight] in E.
    unfold size_of, with_threads; cbn [m_q m_threads]; lia.
  - pose proof (TW_set _ _ _ TIdle Hi) as E; cbn [weight] in E.
    unfold size_of, with_threads; cbn [m_q m_threads]; lia.
Qed.

Lemma runs_end m : m_init m = true -> exists bound, forall k m', mrun k m m' -> (k <= bound)%nat.
Proof.
  intros Hini; exists (size_of m); intros k m' Hr.
  induction Hr as [m|k m1 m2 m3 Hs Hr IH]; [lia|].
  pose proof (mint_size _ _ Hs Hini); pose proof (mint_init _ _ Hs) as Hi2.
  assert (k <= size_of m2)%nat by (apply IH; congruence); lia.
Qed.

Lemma mrun_reach c n k m m' : mreach c n m -> mrun k m m' -> mreach c n m'.
Proof.
  intros Hr H; induction H as [m|k m1 m2 m3 Hs H IH]; [exact Hr|].
  apply IH; eapply MRS; [exact Hr|left; exact Hs].
Qed.

Lemma mrun_init k m m' : mrun k m m' -> m_init m' = m_init m.
Proof. induction 1 as [|k m1 m2 m3 Hs H IH]; [reflexivity|]. rewrite IH; apply mint_init, Hs. Qed.

(** Once discovery has finished, every maximal run answers every caller. *)
Lemma all_answered c n m : mreach c n m -> m_init m = true ->
  (exists bound, forall k m', mrun k m m' -> (k <= bound)%nat) /\
  (forall k m', mrun k m m' -> (forall m'', ~ mint m' m'') ->
     forall t, In t (m_threads m') -> asking t = false).
Proof.
  intros Hr Hi; split; [apply runs_end, Hi|].
  intros k m' Hrun Hst t Ht; pose proof (mrun_reach _ _ _ _ _ Hr Hrun) as Hr'.
  destruct (stuck_means_answered _ _ _ Hr' Hst) as (A & _).
  destruct (asking t) eqn:Ea; [|reflexivity].
  destruct (A t Ht Ea) as (_ & Hini & _); rewrite (mrun_init _ _ _ Hrun) in Hini; congruence.
Qed.

Lemma waiters_counted c n m : mreach c n m ->
  m_waiters m = Z.of_nat (how_many asleep (m_threads m) + how_many woken (m_threads m)).
Proof.
  intros Hr; apply minv_reach in Hr; destruct Hr as (_ & _ & I3 & _).
  rewrite !how_many_sum; exact I3.
Qed.

Lemma full_count l : (W l + P l <= length l)%nat /\
  (W l + P l = length l -> forall t, In t l -> t = TAsleep \/ t = TWoken)%nat.
Proof.
  unfold W, P; induction l as [|t l [IH1 IH2]]; cbn; [split; [lia|intros _ t []]|].
  split; [destruct t; cbn; lia|].
  intros E u [<-|Hu]; [destruct t; cbn in E; auto; lia|apply IH2; [destruct t; cbn in E; lia|exact Hu]].
Qed.

Lemma batch_end c n m : mreach c n m -> batch_finished m n ->
  forall t, In t (m_threads m) -> holding t = false /\ (t = TAsleep \/ t = TWoken).
Proof.
  intros Hr [Hq Hw] t Ht; apply minv_reach in Hr; destruct Hr as (_ & _ & I3 & _ & _ & _ & _ & I8).
  destruct (full_count (m_threads m)) as [F1 F2].
  destruct (F2 ltac:(lia) t Ht) as [->| ->]; cbn; auto.
Qed.

(** What the order "resume list before any request for work" is needed for. *)
Definition late_m : mon :=
  {| m_clients := 2; m_q := 1; m_init := true; m_waiters := 2; m_deq := 0; m_failed := false;
     m_called := true; m_threads := [TWoken; TAsleep] |}.
Definition late_m' : mon :=
  {| m_clients := 2; m_q := 0; m_init := true; m_waiters := 2; m_deq := 0; m_failed := false;
     m_called := true; m_threads := [TWoken; TAsleep] |}.
Definition late_end : mon :=
  {| m_clients := 2; m_q := 0; m_init := true; m_waiters := 1; m_deq := 0; m_failed := false;
     m_called := true; m_threads := [TNone false; TAsleep] |}.

Lemma late_reach : mreach 2 2 late_m.
Proof.
  pose proof (MR0 2 2) as R0.
  assert (R1 : mreach 2 2 {| m_clients := 2; m_q := 0; m_init := false; m_waiters := 0; m_deq := 0;
     m_failed := false; m_called := true; m_threads := [TEnter; TIdle] |})
    by (eapply MRS; [exact R0|right; apply (MCall (mon_init 2 2) 0); reflexivity]).
  assert (R2 : mreach 2 2 {| m_clients := 2; m_q := 0; m_init := false; m_waiters := 0; m_deq := 0;
     m_failed := false; m_called := true; m_threads := [TEnter; TEnter] |})
    by (eapply MRS; [exact R1|right; match goal with |- mext ?a _ => exact (MCall a 1 eq_refl) end]).
  assert (R3 : mreach 2 2 {| m_clients := 2; m_q := 0; m_init := false; m_waiters := 1; m_deq := 0;
     m_failed := false; m_called := true; m_threads := [TAsleep; TEnter] |})
    by (eapply MRS; [exact R2|left; match goal with |- mint ?a _ => exact (MEnter a 0 eq_refl) end]).
  assert (R4 : mreach 2 2 {| m_clients := 2; m_q := 0; m_init := false; m_waiters := 2; m_deq := 0;
     m_failed := false; m_called := true; m_threads := [TAsleep; TAsleep] |})
    by (eapply MRS; [exact R3|left; match goal with |- mint ?a _ => exact (MEnter a 1 eq_refl) end]).
  assert (R5 : mreach 2 2 {| m_clients := 2; m_q := 1; m_init := false; m_waiters := 2; m_deq := 0;
     m_failed := false; m_called := true; m_threads := [TWoken; TAsleep] |}).
  { eapply MRS; [exact R4|right].
    match goal with |- mext ?a _ => refine (MDiscover a 1 [TWoken; TAsleep] eq_refl _) end.
    apply SN_some; [cbn; lia|]; eapply NN_S; [apply (N1_wake _ 0); reflexivity|apply NN_0]. }
  eapply MRS; [exact R5|right].
  match goal with |- mext ?a _ => refine (MFinish a 0 [TWoken; TAsleep] eq_refl _) end.
  apply SN_some; [cbn; lia|apply NN_0].
Qed.

Lemma late_resume_stuck : exists m m' m'',
  mreach 2 2 m /\ resume m [0%nat] 0 m' /\ mrun 1 m' m'' /\
  (forall x, ~ mint m'' x) /\ m_init m'' = true /\ m_q m'' = 0%nat /\
  nth_error (m_threads m'') 1 = Some TAsleep.
Proof.
  exists late_m, late_m', late_end; split; [exact late_reach|]; split; [|split; [|split; [|auto]]].
  - split; [reflexivity|]; split; [reflexivity|].
    exists [TWoken; TAsleep], [TWoken; TAsleep]; split; [|split; [|reflexivity]].
    + eapply SNS_cons; [|apply SNS_nil]; apply SN_some; [cbn; lia|apply NN_0].
    + apply SN_some; [cbn; lia|apply NN_0].
  - eapply MRunS; [apply (MWake late_m' 0); reflexivity|apply MRun0].
  - intros x Hx; remember late_end as m eqn:Em.
    destruct Hx as [m i Hi|m i Hi|m i b Hi|m i b Hi|m i b Hi|m i Hi|m i k Hi Hk|m i k Hi Hk|m i k ths Hi Hn|m i Hi];
      rewrite Em in Hi; destruct i as [|[|[|i]]]; cbn in Hi; discriminate.
Qed.
