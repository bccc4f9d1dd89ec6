(** Sums over a list of threads when one of them moves. *)
From Verif Require Import Model.QueueMonitor Proofs.QueueMonitorFacts.

Section C.
Context {A : Type}.
Fixpoint csum (f : A -> nat) (l : list A) : nat :=
  match l with [] => 0%nat | t :: r => (f t + csum f r)%nat end.
Lemma csum_set f l : forall i t x, nth_error l i = Some t ->
  (csum f (set_nth l i x) + f t = csum f l + f x)%nat.
Proof.
  induction l as [|a l IH]; intros [|i] t x H; cbn in H |- *; try discriminate.
  - injection H as <-; lia.
  - specialize (IH i t x H); lia.
Qed.
Lemma csum_map f g l : csum f (map g l) = csum (fun t => f (g t)) l.
Proof. induction l as [|a l IH]; cbn; [reflexivity|now rewrite IH]. Qed.
Lemma csum_ext f g l : (forall t, f t = g t) -> csum f l = csum g l.
Proof. intros H; induction l as [|a l IH]; cbn; [reflexivity|rewrite H, IH; reflexivity]. Qed.
Lemma csum_plus f g l : csum (fun t => f t + g t)%nat l = (csum f l + csum g l)%nat.
Proof. induction l as [|a l IH]; cbn; [reflexivity|rewrite IH; lia]. Qed.
Lemma csum_le f g l : (forall t, (f t <= g t)%nat) -> (csum f l <= csum g l)%nat.
Proof. intros H; induction l as [|a l IH]; cbn; [lia|pose proof (H a); lia]. Qed.
Lemma csum_const k l : csum (fun _ => k) l = (k * length l)%nat.
Proof. induction l as [|a l IH]; cbn; [lia|rewrite IH; lia]. Qed.
Lemma csum_zero_in f l t : csum f l = 0%nat -> In t l -> f t = 0%nat.
Proof.
  induction l as [|a l IH]; cbn; [easy|]. intros E [<- |H]; [lia|apply IH; [lia|exact H]].
Qed.
Lemma csum_pos_in f l t : In t l -> (0 < f t)%nat -> (0 < csum f l)%nat.
Proof.
  induction l as [|a l IH]; cbn; [easy|]. intros [<- |H] Hf; [lia|specialize (IH H Hf); lia].
Qed.
Lemma csum_in_pos f l : (0 < csum f l)%nat -> exists i t, nth_error l i = Some t /\ (0 < f t)%nat.
Proof.
  induction l as [|a l IH]; cbn; [lia|]. intros H. destruct (f a) eqn:E.
  - destruct IH as [i [t [Hi Ht]]]; [lia|]. exists (S i), t; split; assumption.
  - exists 0%nat, a; split; [reflexivity|lia].
Qed.
Lemma csum_repeat f x n : csum f (repeat x n) = (n * f x)%nat.
Proof. induction n as [|n IH]; cbn; [reflexivity|rewrite IH; lia]. Qed.
Lemma csum_one f l : forall i s, nth_error l i = Some s -> (f s <= csum f l)%nat.
Proof.
  induction l as [|a l IH]; intros [|i] s Hi; cbn in *; try discriminate.
  - injection Hi as ->; lia.
  - specialize (IH i s Hi); lia.
Qed.
(** Two members at different places weigh together at most the sum. *)
Lemma csum_two f l : forall i j s t, i <> j -> nth_error l i = Some s -> nth_error l j = Some t ->
  (f s + f t <= csum f l)%nat.
Proof.
  induction l as [|a l IH]; intros [|i] [|j] s t Hij Hi Hj; cbn in *; try discriminate; try congruence.
  - injection Hi as ->. pose proof (csum_one f l j t Hj). lia.
  - injection Hj as ->. pose proof (csum_one f l i s Hi). lia.
  - assert (Hij' : i <> j) by congruence. specialize (IH i j s t Hij' Hi Hj). lia.
Qed.
End C.
