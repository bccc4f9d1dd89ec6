From Verif Require Import Spec.Sums Model.QueueMonitor.
From Coq Require Import Lia.

Lemma zsum_app {A} (f : A -> Z) l1 l2 : zsum f (l1 ++ l2) = zsum f l1 + zsum f l2.
Proof. induction l1 as [|a l IH]; cbn [app zsum]; [lia|rewrite IH; lia]. Qed.

Lemma zsum_rev {A} (f : A -> Z) l : zsum f (rev l) = zsum f l.
Proof. induction l as [|a l IH]; [reflexivity|]. cbn [rev]. rewrite zsum_app, IH; cbn [zsum]; lia. Qed.

Lemma zsum_set {A} (f : A -> Z) l : forall i t x, nth_error l i = Some t ->
  zsum f (set_nth l i x) = zsum f l + f x - f t.
Proof.
  induction l as [|a l IH]; intros [|i] t x H; try discriminate; cbn [nth_error] in H.
  - injection H as <-; cbn [set_nth zsum]; lia.
  - cbn [set_nth zsum]; rewrite (IH _ _ x H); lia.
Qed.

Lemma zsum_ext {A} (f g : A -> Z) l : (forall a, In a l -> f a = g a) -> zsum f l = zsum g l.
Proof.
  induction l as [|a l IH]; intros H; [reflexivity|]. cbn [zsum].
  rewrite (H a (or_introl eq_refl)), IH; [reflexivity|]. intros b Hb; apply H; right; exact Hb.
Qed.

Lemma zsum_map {A B} (g : A -> B) (f : B -> Z) l : zsum f (map g l) = zsum (fun a => f (g a)) l.
Proof. induction l as [|a l IH]; [reflexivity|]. cbn [map zsum]; rewrite IH; reflexivity. Qed.

Lemma zsum_flat {A B} (g : A -> list B) (f : B -> Z) l :
  zsum f (flat_map g l) = zsum (fun a => zsum f (g a)) l.
Proof. induction l as [|a l IH]; [reflexivity|]. cbn [flat_map zsum]; rewrite zsum_app, IH; reflexivity. Qed.

Lemma zsum_perm {A} (f : A -> Z) l l' : Permutation l l' -> zsum f l = zsum f l'.
Proof. induction 1; cbn [zsum]; lia. Qed.

Lemma zsum_add {A} (f g : A -> Z) l : zsum (fun a => f a + g a) l = zsum f l + zsum g l.
Proof. induction l as [|a l IH]; cbn [zsum]; [reflexivity|rewrite IH; lia]. Qed.

Lemma zsum_nonneg {A} (f : A -> Z) l : (forall a, In a l -> 0 <= f a) -> 0 <= zsum f l.
Proof.
  induction l as [|a l IH]; intros H; cbn [zsum]; [lia|].
  pose proof (H a (or_introl eq_refl)). assert (0 <= zsum f l) by (apply IH; intros b Hb; apply H; right; exact Hb). lia.
Qed.

Lemma zsum_zero {A} (f : A -> Z) l : (forall a, In a l -> 0 <= f a) -> zsum f l = 0 ->
  forall a, In a l -> f a = 0.
Proof.
  induction l as [|b l IH]; intros H E a Ha; [destruct Ha|]. cbn [zsum] in E.
  pose proof (H b (or_introl eq_refl)).
  assert (0 <= zsum f l) by (apply zsum_nonneg; intros c Hc; apply H; right; exact Hc).
  destruct Ha as [<-|Ha]; [lia|]. apply IH; [intros c Hc; apply H; right; exact Hc|lia|exact Ha].
Qed.

Lemma zsum_repeat {A} (f : A -> Z) a n : zsum f (repeat a n) = Z.of_nat n * f a.
Proof. induction n as [|n IH]; [reflexivity|]. cbn [repeat zsum]; rewrite IH; lia. Qed.

Lemma zsum_take_out {A} (f : A -> Z) l j a : nth_error l j = Some a ->
  zsum f (firstn j l ++ skipn (S j) l) = zsum f l - f a.
Proof.
  revert j; induction l as [|b l IH]; intros [|j] H; try discriminate; cbn [nth_error] in H.
  - injection H as ->; cbn [firstn skipn app zsum]; lia.
  - cbn [firstn app zsum]. change (skipn (S (S j)) (b :: l)) with (skipn (S j) l).
    rewrite (IH _ H); lia.
Qed.

Lemma perm_take_out {A} (l : list A) j a : nth_error l j = Some a ->
  Permutation l (a :: firstn j l ++ skipn (S j) l).
Proof.
  revert j; induction l as [|b l IH]; intros [|j] H; try discriminate; cbn [nth_error] in H.
  - injection H as ->; apply Permutation_refl.
  - cbn [firstn app]. change (skipn (S (S j)) (b :: l)) with (skipn (S j) l).
    eapply Permutation_trans; [apply perm_skip, (IH _ H)|apply perm_swap].
Qed.

Lemma perm_set {A B} (f : A -> list B) l : forall i t x, nth_error l i = Some t ->
  Permutation (flat_map f (set_nth l i x) ++ f t) (flat_map f l ++ f x).
Proof.
  induction l as [|a l IH]; intros [|i] t x H; try discriminate; cbn [nth_error] in H.
  - injection H as <-; cbn [set_nth flat_map].
    rewrite <- !app_assoc.
    eapply Permutation_trans; [apply Permutation_app_comm|].
    rewrite <- app_assoc.
    eapply Permutation_trans; [|apply Permutation_app_comm].
    rewrite <- app_assoc.
    apply Permutation_app_head, Permutation_app_comm.
  - cbn [set_nth flat_map]. rewrite <- !app_assoc. apply Permutation_app_head, IH, H.
Qed.
