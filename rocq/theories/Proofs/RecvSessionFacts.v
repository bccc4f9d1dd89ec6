From Verif Require Export Spec.RecvSessionSpec.
From Verif Require Import Proofs.QueueMonitorFacts.
From Coq Require Import Lia.

(** ** Folds over what was seen *)

Definition flags (outs : list rout) := fold_left served_step outs (false, false, true).
Definition conn_of (outs : list rout) : bool := fst (fst (flags outs)).

Lemma added_app a b : added (a ++ b) = fold_left added_step b (added a).
Proof. unfold added; apply fold_left_app. Qed.
Lemma ledger_app i a b : ledger i (a ++ b) = fold_left (ledger_step i) b (ledger i a).
Proof. unfold ledger; apply fold_left_app. Qed.
Lemma flags_app a b : flags (a ++ b) = fold_left served_step b (flags a).
Proof. unfold flags; apply fold_left_app. Qed.
Lemma ending_app i a b : ending i (a ++ b) = fold_left (ending_step i) b (ending i a).
Proof. unfold ending; apply fold_left_app. Qed.

Lemma served_false b : forall c f, snd (fold_left served_step b (c, f, false)) = false.
Proof. induction b as [|o b IH]; intros c f; [reflexivity|]. destruct o; cbn; apply IH. Qed.
Lemma served_prefix a b : served (a ++ b) -> served a.
Proof.
  unfold served; rewrite fold_left_app.
  destruct (fold_left served_step a (false, false, true)) as [[c f] [|]]; [reflexivity|].
  rewrite served_false; discriminate.
Qed.

Lemma failed_added outs : snd (fst (flags outs)) = false -> added outs = [].
Proof.
  induction outs as [|o outs IH] using rev_ind; [reflexivity|].
  rewrite flags_app, added_app; cbn.
  destruct (flags outs) as [[c f] k]; destruct o; cbn in *; auto; discriminate.
Qed.

(** ** Runs *)

(** The cases of a step. *)
Lemma step_cases s e s' o : rs_step s e = Some (Ret (s', o)) ->
  match e with
  | EThread i a => exists t, nth_error (rs_threads s) i = Some t /\ rt_ph t <> PGone /\
      ((exists t', rt_idx t' = rt_idx t /\ rt_pend t' = rt_pend t /\ (rs_abort s = true \/ rt_ph t = PEnd) /\
          (s', o) = leave s i t') \/
       (rs_abort s && negb (inside (rt_ph t)) = false /\ rt_ph t <> PEnd /\
        stateStep s i t a = Some (Ret (s', o))))
  | EAbort => s' = {| rs_ckpts := rs_ckpts s; rs_threads := rs_threads s;
                      rs_started := rs_started s; rs_abort := true; rs_begun := rs_begun s;
                      rs_gone := rs_gone s |} /\ o = []
  | ENext => all_gone s = true /\ s' = nextSession s /\ o = [OSession]
  end.
Proof.
  unfold rs_step, threadStep; intros E. destruct e as [i a| |].
  - destruct (nth_error (rs_threads s) i) as [t|] eqn:Et; [|discriminate].
    exists t; split; [reflexivity|].
    destruct (rs_abort s && negb (inside (rt_ph t))) eqn:Ea.
    + assert (Hp : rt_ph t <> PGone) by (intros Hp; rewrite Hp in E; discriminate).
      split; [exact Hp|]. left; exists (fail t ABORT (rt_ph t)).
      split; [reflexivity|]. split; [reflexivity|].
      apply andb_prop in Ea as Ea'; split; [left; apply Ea'|].
      destruct (rt_ph t); try congruence; rewrite Ea in E; injection E as <- <-; reflexivity.
    + destruct (rt_ph t) eqn:Ep; try discriminate; rewrite Ea in E;
        (split; [discriminate|]);
        try (right; split; [reflexivity|]; split; [discriminate|]; exact E).
      left; exists t. injection E as <- <-. auto.
  - injection E as <- <-; auto.
  - destruct (all_gone s) eqn:Eg; [|discriminate]. injection E as <- <-; auto.
Qed.

(** The cases of [stateStep]. *)
Ltac state_cases E :=
  unfold stateStep, checkForFinishOrNew, readCmd in E;
  repeat match type of E with
         | context [match rt_ph ?t with _ => _ end] => destruct (rt_ph t) eqn:?Ph; try discriminate E
         | context [match ?a with IListen _ => _ | _ => _ end] => is_var a; destruct a; try discriminate E
         | context [match ?a with CReadFail => _ | _ => _ end] => is_var a; destruct a; try discriminate E
         | context [match ?a with FVerified => _ | _ => _ end] => is_var a; destruct a; try discriminate E
         | context [match ?a with PListen => _ | _ => _ end] => is_var a; destruct a; try discriminate E
         | context [match getNewCheckpoints ?s ?n with _ => _ end] =>
             destruct (getNewCheckpoints s n) eqn:?Gn; try discriminate E
         | context [if ?b then _ else _] => destruct b eqn:?Eb; try discriminate E
         end; try discriminate E; cbn beta zeta in E; injection E as <- <-.

Lemma step_one s e s' o : rs_step s e = Some (Ret (s', o)) -> o = [] \/ exists x, o = [x].
Proof.
  intros E. apply step_cases in E. destruct e as [i a| |].
  - destruct E as (t & _ & _ & [(t' & _ & _ & _ & E) | (_ & _ & E)]).
    + unfold leave in E; injection E as _ ->; eauto.
    + state_cases E; eauto.
  - destruct E as [_ ->]; auto.
  - destruct E as (_ & _ & ->); eauto.
Qed.

Lemma run_app l1 : forall s l2 s' o, rs_run s (l1 ++ l2) = Some (Ret (s', o)) ->
  exists s1 o1 o2, rs_run s l1 = Some (Ret (s1, o1)) /\ rs_run s1 l2 = Some (Ret (s', o2)) /\ o = o1 ++ o2.
Proof.
  induction l1 as [|e l1 IH]; intros s l2 s' o H; cbn in H.
  - exists s, [], o; auto.
  - destruct (rs_step s e) as [[[s1 o1]| |]|] eqn:E; try discriminate.
    destruct (rs_run s1 (l1 ++ l2)) as [[[s2 o2]| |]|] eqn:R; try discriminate.
    injection H as <- <-.
    destruct (IH s1 l2 _ _ R) as (s3 & o3 & o4 & R1 & R2 & ->).
    exists s3, (o1 ++ o3), o4; cbn; rewrite E, R1, R2, app_assoc; auto.
Qed.

Lemma run_split l : forall s s' pre x post, rs_run s l = Some (Ret (s', pre ++ x :: post)) ->
  exists l1 e l2 s1 s2, l = l1 ++ e :: l2 /\ rs_run s l1 = Some (Ret (s1, pre)) /\
    rs_step s1 e = Some (Ret (s2, [x])) /\ rs_run s2 l2 = Some (Ret (s', post)).
Proof.
  induction l as [|e l IH]; intros s s' pre x post H; cbn in H.
  - injection H as _ H; destruct pre; discriminate.
  - destruct (rs_step s e) as [[[s1 o1]| |]|] eqn:E; try discriminate.
    destruct (rs_run s1 l) as [[[s2 o2]| |]|] eqn:R; try discriminate.
    injection H as -> H.
    destruct (step_one _ _ _ _ E) as [-> | [y ->]].
    + cbn in H; subst o2. destruct (IH _ _ _ _ _ R) as (l1 & e' & l2 & s3 & s4 & -> & R1 & R2 & R3).
      exists (e :: l1), e', l2, s3, s4; cbn; rewrite E, R1; auto.
    + destruct pre as [|z pre]; cbn in H; injection H as -> H.
      * subst o2. exists [], e, l, s, s1; auto.
      * subst o2. destruct (IH _ _ _ _ _ R) as (l1 & e' & l2 & s3 & s4 & -> & R1 & R2 & R3).
        exists (e :: l1), e', l2, s3, s4; cbn; rewrite E, R1; auto.
Qed.

(** ** The invariant *)

Definition early (p : rphase) : bool :=
  match p with PListen | PFirst | PFinish | PEnd | PGone => true | _ => false end.

Definition tinv (g : list checkpoint) (begun : bool) (i : nat) (outs : list rout) (t : rthread) : Prop :=
  (rt_idx t <= rt_pend t <= length g)%nat /\
  ledger i outs = (firstn (rt_idx t) g, firstn (rt_pend t - rt_idx t) (skipn (rt_idx t) g)) /\
  (rt_ph t = PSendGlobal -> rt_new t <> [] /\ exists rest, skipn (rt_idx t) g = rt_new t ++ rest) /\
  (rt_ph t = PListen \/ rt_ph t = PFirst -> rt_pend t = O) /\
  (In i (map fst (added outs)) -> rt_ph t = PEnd \/ rt_ph t = PGone) /\
  (early (rt_ph t) = false -> begun = true).

Definition gone_b (t : rthread) : bool := match rt_ph t with PGone => true | _ => false end.
Definition gones (l : list rthread) : nat := length (filter gone_b l).

Arguments gones : simpl never.
Arguments conn_of : simpl never.

Definition sinv (s : rsession) (outs : list rout) : Prop :=
  rs_gone s = gones (rs_threads s) /\ rs_begun s = conn_of outs /\
  ((gones (rs_threads s) < length (rs_threads s))%nat ->
     rs_started s = rs_begun s /\ rs_ckpts s = map snd (added outs) /\
     forall i t, nth_error (rs_threads s) i = Some t -> tinv (rs_ckpts s) (rs_begun s) i outs t) /\
  (gones (rs_threads s) = length (rs_threads s) ->
     rs_started s = false /\ rs_ckpts s = if rs_begun s then [] else map snd (added outs)).

Lemma gones_le l : (gones l <= length l)%nat.
Proof. unfold gones; induction l as [|t l IH]; cbn; [lia|]. destruct (gone_b t); cbn; lia. Qed.
Lemma gones_set l : forall i t x, nth_error l i = Some t ->
  (gones (set_nth l i x) + (if gone_b t then 1 else 0) = gones l + (if gone_b x then 1 else 0))%nat.
Proof.
  unfold gones; induction l as [|a l IH]; intros [|i] t x H; cbn in H |- *; try discriminate.
  - injection H as ->; destruct (gone_b t), (gone_b x); cbn; lia.
  - specialize (IH i t x H); destruct (gone_b a); cbn; lia.
Qed.
Lemma gones_live l i t : nth_error l i = Some t -> rt_ph t <> PGone -> (gones l < length l)%nat.
Proof.
  intros H Hp. pose proof (gones_set l i t (go t PGone) H) as G.
  pose proof (gones_le (set_nth l i (go t PGone))) as L. rewrite set_nth_length in L.
  destruct (gone_b t) eqn:E; [unfold gone_b in E; destruct (rt_ph t); congruence|].
  cbn in G; lia.
Qed.
Lemma all_gone_gones s : all_gone s = true -> gones (rs_threads s) = length (rs_threads s).
Proof.
  unfold all_gone, gones; induction (rs_threads s) as [|t l IH]; cbn; [reflexivity|].
  intros H; apply andb_prop in H as [H1 H2]. unfold gone_b at 1. destruct (rt_ph t); try discriminate.
  cbn; rewrite IH; auto.
Qed.

(** An output that concerns only port [i]'s ledger and adds nothing. *)
Definition about_port (i : nat) (o : list rout) : Prop :=
  o = [] \/ exists x, o = [x] /\
    match x with
    | OAccepted j | OCommand j | OTold j _ | OLocal j _ | OWait j | OEnding j | ODone j | OGone j => j = i
    | OSession | OAdded _ _ => False
    end.

Lemma about_added i o outs : about_port i o -> added (outs ++ o) = added outs.
Proof.
  intros [-> | [x [-> H]]]; rewrite added_app; [reflexivity|]. destruct x; try contradiction; reflexivity.
Qed.
Lemma about_ledger i o outs j : about_port i o -> i <> j -> ledger j (outs ++ o) = ledger j outs.
Proof.
  intros [-> | [x [-> H]]] Hn; rewrite ledger_app; [reflexivity|].
  destruct x; try contradiction; subst; cbn; try reflexivity; rewrite (proj2 (Nat.eqb_neq j i)) by congruence; reflexivity.
Qed.

(** One thread moves and the shared list stays. *)
Lemma put_inv s outs i t t' o b st :
  sinv s outs -> nth_error (rs_threads s) i = Some t -> rt_ph t <> PGone -> rt_ph t' <> PGone ->
  about_port i o -> b = conn_of (outs ++ o) -> st = b -> (rs_begun s = true -> b = true) ->
  tinv (rs_ckpts s) b i (outs ++ o) t' ->
  sinv {| rs_ckpts := rs_ckpts s; rs_threads := set_nth (rs_threads s) i t'; rs_started := st;
          rs_abort := rs_abort s; rs_begun := b; rs_gone := rs_gone s |} (outs ++ o).
Proof.
  intros (G & B & L & O) H Hp Hp' Ha Hb -> Hm Ht.
  pose proof (gones_live _ _ _ H Hp) as Lv. specialize (L Lv) as (S1 & S2 & S3).
  pose proof (gones_set _ _ _ t' H) as GS.
  replace (gone_b t) with false in GS by (unfold gone_b; destruct (rt_ph t); congruence).
  replace (gone_b t') with false in GS by (unfold gone_b; destruct (rt_ph t'); congruence).
  cbv iota in GS.
  unfold sinv; cbn. rewrite set_nth_length.
  split; [lia|]. split; [exact Hb|]. split; [|lia].
  intros _. split; [reflexivity|]. rewrite (about_added _ _ _ Ha). split; [exact S2|].
  intros j u Hj. destruct (Nat.eq_dec i j) as [<- | Hn].
  - rewrite (nth_set_same _ _ _ _ H) in Hj; injection Hj as <-; exact Ht.
  - rewrite nth_set_other in Hj by exact Hn. destruct (S3 j u Hj) as (T1 & T2 & T3 & T4 & T5 & T6).
    unfold tinv. rewrite (about_ledger _ _ _ _ Ha Hn), (about_added _ _ _ Ha).
    repeat (split; [assumption|]). intros E; apply Hm, T6, E.
Qed.

Lemma leave_inv s outs i t t' : sinv s outs -> nth_error (rs_threads s) i = Some t ->
  rt_ph t <> PGone -> rt_idx t' = rt_idx t -> rt_pend t' = rt_pend t ->
  sinv (fst (leave s i t')) (outs ++ snd (leave s i t')).
Proof.
  intros (G & B & L & O) H Hp Hi Hd.
  pose proof (gones_live _ _ _ H Hp) as Lv. specialize (L Lv) as (S1 & S2 & S3).
  pose proof (gones_set _ _ _ (go (mark t' RFinished) PGone) H) as GS.
  replace (gone_b t) with false in GS by (unfold gone_b; destruct (rt_ph t); congruence).
  change (gone_b (go (mark t' RFinished) PGone)) with true in GS; cbv iota in GS.
  pose proof (gones_le (set_nth (rs_threads s) i (go (mark t' RFinished) PGone))) as Le.
  rewrite set_nth_length in Le.
  assert (A : added (outs ++ [OGone i]) = added outs) by (rewrite added_app; reflexivity).
  assert (C : conn_of (outs ++ [OGone i]) = conn_of outs).
  { unfold conn_of; rewrite flags_app; cbn. destruct (flags outs) as [[c f] k]; reflexivity. }
  unfold leave; cbn [rs_gone rs_threads put fst snd].
  rewrite set_nth_length.
  destruct (Nat.eqb (S (rs_gone s)) (length (rs_threads s))) eqn:E.
  - apply Nat.eqb_eq in E. unfold endCurGlobalSession; cbn.
    rewrite S1. unfold sinv.
    destruct (rs_begun s) eqn:Eb; cbn; rewrite ?set_nth_length, ?A, C.
    + repeat split; try lia; auto.
    + repeat split; try lia; auto.
  - apply Nat.eqb_neq in E. unfold sinv; cbn. rewrite set_nth_length, A, C.
    split; [lia|]. split; [exact B|]. split; [|lia].
    intros _. split; [exact S1|]. split; [exact S2|].
    intros j u Hj.
    assert (Lj : ledger j (outs ++ [OGone i]) = ledger j outs) by (rewrite ledger_app; reflexivity).
    destruct (Nat.eq_dec i j) as [<- | Hn].
    + rewrite (nth_set_same _ _ _ _ H) in Hj; injection Hj as <-.
      destruct (S3 i t H) as (T1 & T2 & T3 & T4 & T5 & T6).
      unfold tinv; rewrite Lj, A; cbn. rewrite Hi, Hd.
      split; [exact T1|]. split; [exact T2|]. split; [discriminate|]. split; [intros [? | ?]; discriminate|].
      split; [auto|discriminate].
    + rewrite nth_set_other in Hj by exact Hn. destruct (S3 j u Hj) as (T1 & T2 & T3 & T4 & T5 & T6).
      unfold tinv; rewrite Lj, A. repeat (split; [assumption|]). assumption.
Qed.

Lemma conn_same outs o : (forall j, o <> OAccepted j) -> o <> OSession -> conn_of (outs ++ [o]) = conn_of outs.
Proof.
  intros H H'. unfold conn_of; rewrite flags_app; cbn.
  destruct (flags outs) as [[c f] k]; destruct o; try reflexivity; try congruence.
Qed.
Lemma conn_acc outs i : conn_of (outs ++ [OAccepted i]) = true.
Proof. unfold conn_of; rewrite flags_app; cbn. destruct (flags outs) as [[c f] k]; reflexivity. Qed.

Lemma finish_inv s outs i t : sinv s outs -> nth_error (rs_threads s) i = Some t -> rt_ph t = PFinish ->
  sinv (put (addCheckpoint s (rt_ck t)) i (go (mark t RFinished) PEnd)) (outs ++ [OAdded i (rt_ck t)]).
Proof.
  intros (G & B & L & O) H Hp.
  pose proof (gones_live _ _ _ H ltac:(congruence)) as Lv. specialize (L Lv) as (S1 & S2 & S3).
  pose proof (gones_set _ _ _ (go (mark t RFinished) PEnd) H) as GS.
  replace (gone_b t) with false in GS by (unfold gone_b; rewrite Hp; reflexivity).
  change (gone_b (go (mark t RFinished) PEnd)) with false in GS; cbv iota in GS.
  unfold sinv, put, addCheckpoint; cbn. rewrite set_nth_length.
  split; [lia|]. split; [rewrite conn_same by congruence; exact B|]. split; [|lia].
  intros _. split; [exact S1|]. rewrite added_app; cbn. rewrite map_app; cbn. rewrite <- S2.
  split; [reflexivity|].
  assert (W : forall j u, tinv (rs_ckpts s) (rs_begun s) j outs u -> (j = i -> rt_ph u = PEnd \/ rt_ph u = PGone) ->
              tinv (rs_ckpts s ++ [rt_ck t]) (rs_begun s) j (outs ++ [OAdded i (rt_ck t)]) u).
  { intros j u (T1 & T2 & T3 & T4 & T5 & T6) Hj. unfold tinv.
    rewrite app_length; cbn. split; [lia|].
    rewrite ledger_app; cbn. split.
    { rewrite T2, firstn_app, skipn_app, firstn_app.
      replace (rt_idx u - length (rs_ckpts s))%nat with 0%nat by lia; cbn [firstn skipn].
      rewrite app_nil_r, skipn_length.
      replace (rt_pend u - rt_idx u - (length (rs_ckpts s) - rt_idx u))%nat with 0%nat by lia.
      cbn [firstn]; rewrite app_nil_r; reflexivity. }
    split.
    { intros E; destruct (T3 E) as (N & rest & R). split; [exact N|].
      exists (rest ++ [rt_ck t]). rewrite skipn_app.
      replace (rt_idx u - length (rs_ckpts s))%nat with 0%nat by lia; cbn [skipn].
      rewrite R, <- app_assoc; reflexivity. }
    split; [exact T4|]. split; [|exact T6].
    rewrite added_app; cbn. rewrite map_app, in_app_iff; cbn. intros [X | [X | []]]; [auto|].
    apply Hj; symmetry; exact X. }
  intros j u Hj. destruct (Nat.eq_dec i j) as [<- | Hn].
  - rewrite (nth_set_same _ _ _ _ H) in Hj; injection Hj as <-.
    apply W; [|cbn; auto].
    destruct (S3 i t H) as (T1 & T2 & T3 & T4 & T5 & T6).
    unfold tinv; cbn. repeat (split; [assumption|]).
    split; [discriminate|]. split; [intros [? | ?]; discriminate|]. split; [auto|discriminate].
  - rewrite nth_set_other in Hj by exact Hn. apply W; [apply S3; exact Hj|congruence].
Qed.

Lemma firstn_confirm (A : Type) (g : list A) a b : (a <= b <= length g)%nat ->
  firstn a g ++ firstn (b - a) (skipn a g) = firstn b g.
Proof.
  intros H. rewrite <- (firstn_skipn a g) at 3.
  rewrite firstn_app, firstn_firstn, firstn_length.
  replace (Nat.min b a) with a by lia. replace (b - Nat.min a (length g))%nat with (b - a)%nat by lia.
  reflexivity.
Qed.

Ltac tinv_split :=
  split; [try lia|]; split; [|split; [try discriminate|split;
    [try (intros [? | ?]; discriminate)|split; [|try discriminate]]]].

Lemma stateStep_inv s outs i t a s' o :
  sinv s outs -> nth_error (rs_threads s) i = Some t -> rt_ph t <> PGone -> rt_ph t <> PEnd ->
  stateStep s i t a = Some (Ret (s', o)) -> sinv s' (outs ++ o).
Proof.
  intros I H Hp He E.
  pose proof I as (_ & B & L & _). specialize (L (gones_live _ _ _ H Hp)) as (S1 & S2 & S3).
  destruct (S3 i t H) as (T1 & T2 & T3 & T4 & T5 & T6).
  assert (T5' : ~ In i (map fst (added outs))) by (intros X; destruct (T5 X); congruence).
  assert (Z : rt_ph t = PListen \/ rt_ph t = PFirst -> rt_idx t = O /\ rt_pend t = O).
  { intros X; specialize (T4 X); lia. }
  state_cases E; try (apply finish_inv; assumption);
    unfold put, startSession; cbn [rs_ckpts rs_threads rs_started rs_abort rs_begun rs_gone];
    (eapply put_inv; [exact I|exact H|congruence| | | | | |]);
    try (cbn; repeat match goal with |- context [if ?b then _ else _] => destruct b end; discriminate);
    try (left; reflexivity); try (right; eexists; split; [reflexivity|reflexivity]);
    rewrite ?app_nil_r; try rewrite conn_acc; try rewrite conn_same by congruence;
    try exact B; try exact S1; try reflexivity; try (auto; fail).
  all: cbn [early] in T6.
  all: try (rewrite S1; destruct (rs_begun s); reflexivity).
  all: try (exfalso; congruence).
  all: try rewrite B in T6; try rewrite B.
  all: unfold tinv; rewrite ?added_app, ?ledger_app; cbn [fold_left added_step ledger_step];
       rewrite ?Nat.eqb_refl; cbn.
  all: try (tinv_split; try assumption; try (intros; contradiction); auto; fail).
  all: try (destruct (rt_err t =? VERSION_MISMATCH); tinv_split; try assumption; try (intros; contradiction); auto; fail).
  all: try (destruct (rt_err t =? OK); tinv_split; try assumption; try (intros; contradiction); auto; fail).
  all: try congruence.
  all: rewrite ?Ph in *; cbn [early] in *; try (rewrite T2; cbn [fst snd]); rewrite ?Nat.sub_diag, ?firstn_confirm by assumption.
  all: try (destruct Z as [E1 E2]; [tauto|rewrite E1, ?E2; cbn [firstn Nat.sub]]).
  all: try (tinv_split; try reflexivity; try assumption; try (intros; contradiction);
            try (intros _; congruence); auto; fail).
  - destruct (T3 eq_refl) as (N & rest & R).
    assert (Lr : (length (skipn (rt_idx t) (rs_ckpts s)) = length (rt_new t) + length rest)%nat)
      by (rewrite R, app_length; reflexivity).
    rewrite skipn_length in Lr.
    tinv_split; try (intros; contradiction); auto.
    rewrite R. replace (rt_idx t + length (rt_new t) - rt_idx t)%nat with (length (rt_new t)) by lia.
    rewrite firstn_app, Nat.sub_diag, firstn_all, app_nil_r; reflexivity.
  - tinv_split; try (intros; contradiction); auto.
    intros _; split; [congruence|]. exists []; rewrite app_nil_r; exact Gn.
  - tinv_split; try (intros; contradiction); auto.
    intros _; split; [congruence|]. exists []; rewrite app_nil_r; exact Gn.
Qed.

Lemma gones_listen (A : Type) (f : A -> rthread) l : (forall x, rt_ph (f x) = PListen) -> gones (map f l) = 0%nat.
Proof.
  intros H. unfold gones. induction l as [|x l IH]; cbn; [reflexivity|].
  unfold gone_b at 1. rewrite H. exact IH.
Qed.

Lemma tinv_listen b i outs t : rt_ph t = PListen -> rt_idx t = 0%nat -> rt_pend t = 0%nat ->
  ledger i outs = ([], []) -> added outs = [] -> tinv [] b i outs t.
Proof.
  intros H1 H2 H3 H4 H5. unfold tinv. rewrite H1, H2, H3, H4, H5; cbn.
  split; [lia|]. split; [reflexivity|]. split; [discriminate|]. split; [auto|]. split; [intros []|discriminate].
Qed.

Lemma init_inv ports : sinv (rsession_init ports) [].
Proof.
  unfold sinv, rsession_init; cbn. rewrite (gones_listen _ rthread_new) by reflexivity.
  split; [reflexivity|]. split; [reflexivity|]. split; [|auto].
  intros _. split; [reflexivity|]. split; [reflexivity|].
  intros i t H. apply nth_error_In, in_map_iff in H as (p & <- & _).
  apply tinv_listen; reflexivity.
Qed.

Lemma step_inv s outs e s' o : sinv s outs -> served (outs ++ o) -> rs_step s e = Some (Ret (s', o)) ->
  sinv s' (outs ++ o).
Proof.
  intros I Sv E. apply step_cases in E. destruct e as [i a| |].
  - destruct E as (t & H & Hp & [(t' & Hi & Hd & _ & E) | (_ & He & E)]).
    + pose proof (leave_inv s outs i t t' I H Hp Hi Hd) as L. rewrite <- E in L. exact L.
    + eapply stateStep_inv; eassumption.
  - destruct E as [-> ->]. rewrite app_nil_r. exact I.
  - destruct E as (G & -> & ->). apply all_gone_gones in G.
    destruct I as (_ & B & _ & Ov). destruct (Ov G) as [St Ck].
    assert (A : added (outs ++ [OSession]) = []) by (rewrite added_app; reflexivity).
    assert (C : conn_of (outs ++ [OSession]) = false).
    { unfold conn_of; rewrite flags_app; cbn. destruct (flags outs) as [[c f] k]; reflexivity. }
    assert (Ck' : rs_ckpts s = []).
    { rewrite Ck, B. destruct (conn_of outs) eqn:Ec; [reflexivity|].
      rewrite (failed_added outs); [reflexivity|].
      unfold served in Sv. change (snd (flags (outs ++ [OSession])) = true) in Sv.
      rewrite flags_app in Sv. unfold conn_of in Ec.
      destruct (flags outs) as [[c f] k]; cbn in *. subst c.
      destruct k, f; cbn in Sv; congruence. }
    unfold sinv, nextSession; cbn. rewrite gones_listen, map_length, A, C, Ck', St by reflexivity.
    split; [reflexivity|]. split; [reflexivity|]. split; [|auto].
    intros _. split; [reflexivity|]. split; [reflexivity|].
    intros i t H. apply nth_error_In, in_map_iff in H as (p & <- & _).
    apply tinv_listen; try reflexivity; [|exact A]. rewrite ledger_app; reflexivity.
Qed.

Lemma run_inv l : forall s outs s' o, sinv s outs -> served (outs ++ o) -> rs_run s l = Some (Ret (s', o)) ->
  sinv s' (outs ++ o).
Proof.
  induction l as [|e l IH]; intros s outs s' o I Sv R; cbn in R.
  - injection R as <- <-. rewrite app_nil_r. exact I.
  - destruct (rs_step s e) as [[[s1 o1]| |]|] eqn:E; try discriminate.
    destruct (rs_run s1 l) as [[[s2 o2]| |]|] eqn:R1; try discriminate.
    injection R as <- <-. rewrite app_assoc in *.
    eapply IH; [|exact Sv|exact R1]. eapply step_inv; [exact I| |exact E].
    eapply served_prefix; exact Sv.
Qed.

Lemma reach_inv ports l s outs : rs_run (rsession_init ports) l = Some (Ret (s, outs)) -> served outs ->
  sinv s outs.
Proof. intros R Sv. apply (run_inv l _ [] _ _ (init_inv ports) Sv R). Qed.

Lemma reach_thread s outs i t : sinv s outs -> nth_error (rs_threads s) i = Some t -> rt_ph t <> PGone ->
  rs_ckpts s = map snd (added outs) /\ tinv (map snd (added outs)) (rs_begun s) i outs t.
Proof.
  intros (_ & _ & L & _) H Hp. destruct (L (gones_live _ _ _ H Hp)) as (_ & S2 & S3).
  split; [exact S2|]. rewrite <- S2. apply S3, H.
Qed.

(** ** Global checkpoints *)

Lemma told_step s e s' i cs : rs_step s e = Some (Ret (s', [OTold i cs])) ->
  exists t, nth_error (rs_threads s) i = Some t /\ rt_ph t = PSendGlobal /\ rt_new t = cs.
Proof.
  intros E. apply step_cases in E. destruct e as [j a| |].
  - destruct E as (t & H & Hp & [(t' & _ & _ & _ & E) | (_ & He & E)]).
    + unfold leave in E; injection E as _ E; discriminate.
    + unfold stateStep, checkForFinishOrNew, readCmd in E.
      destruct (rt_ph t) eqn:Ph; try congruence; destruct a; try discriminate;
      repeat match type of E with
         | context [match ?a with CReadFail => _ | _ => _ end] => is_var a; destruct a; try discriminate E
         | context [match ?a with FVerified => _ | _ => _ end] => is_var a; destruct a; try discriminate E
         | context [match ?a with PListen => _ | _ => _ end] => is_var a; destruct a; try discriminate E
         | context [match getNewCheckpoints ?s ?n with _ => _ end] =>
             destruct (getNewCheckpoints s n) eqn:?Gn; try discriminate E
         | context [if ?b then _ else _] => destruct b eqn:?Eb; try discriminate E
         end; try discriminate E.
      injection E as _ <- <-. eauto.
  - destruct E as [_ E]; discriminate.
  - destruct E as (_ & _ & E); discriminate.
Qed.

Lemma ending_at s e s' i : rs_step s e = Some (Ret (s', [OEnding i])) ->
  exists t, nth_error (rs_threads s) i = Some t /\ (rt_ph t = PCheck \/ rt_ph t = PSleep) /\
    getNewCheckpoints s (rt_idx t) = [] /\ hasRunning (rs_threads s) i = false.
Proof.
  intros E. apply step_cases in E. destruct e as [j a| |].
  - destruct E as (t & H & Hp & [(t' & _ & _ & _ & E) | (_ & He & E)]).
    + unfold leave in E; injection E as _ E; discriminate.
    + unfold stateStep, checkForFinishOrNew, readCmd in E.
      destruct (rt_ph t) eqn:Ph; try congruence; destruct a; try discriminate;
      repeat match type of E with
         | context [match ?a with CReadFail => _ | _ => _ end] => is_var a; destruct a; try discriminate E
         | context [match ?a with FVerified => _ | _ => _ end] => is_var a; destruct a; try discriminate E
         | context [match ?a with PListen => _ | _ => _ end] => is_var a; destruct a; try discriminate E
         | context [match getNewCheckpoints ?s ?n with _ => _ end] =>
             destruct (getNewCheckpoints s n) eqn:?Gn; try discriminate E
         | context [if ?b then _ else _] => destruct b eqn:?Eb; try discriminate E
         end; try discriminate E; injection E as _ <-; eauto 6.
  - destruct E as [_ E]; discriminate.
  - destruct E as (_ & _ & E); discriminate.
Qed.

Lemma told_in_order ports l s pre i cs post :
  rs_run (rsession_init ports) l = Some (Ret (s, pre ++ OTold i cs :: post)) -> served pre ->
  cs <> [] /\ exists rest, map snd (added pre) = confirmed i pre ++ cs ++ rest.
Proof.
  intros R Sv. destruct (run_split _ _ _ _ _ _ R) as (l1 & e & l2 & s1 & s2 & -> & R1 & E & _).
  pose proof (reach_inv _ _ _ _ R1 Sv) as I.
  destruct (told_step _ _ _ _ _ E) as (t & H & Ph & <-).
  destruct (reach_thread _ _ _ _ I H ltac:(congruence)) as (_ & T1 & T2 & T3 & _).
  destruct (T3 Ph) as (N & rest & Q). split; [exact N|]. exists rest.
  unfold confirmed; rewrite T2; cbn [fst]. rewrite <- Q, firstn_skipn; reflexivity.
Qed.

Lemma told_not_own ports l s pre i cs post :
  rs_run (rsession_init ports) l = Some (Ret (s, pre ++ OTold i cs :: post)) -> served pre ->
  ~ In i (map fst (added pre)).
Proof.
  intros R Sv X. destruct (run_split _ _ _ _ _ _ R) as (l1 & e & l2 & s1 & s2 & -> & R1 & E & _).
  pose proof (reach_inv _ _ _ _ R1 Sv) as I.
  destruct (told_step _ _ _ _ _ E) as (t & H & Ph & <-).
  destruct (reach_thread _ _ _ _ I H ltac:(congruence)) as (_ & T1 & T2 & T3 & T4 & T5 & _).
  destruct (T5 X); congruence.
Qed.

Lemma end_after_all ports l s pre i post :
  rs_run (rsession_init ports) l = Some (Ret (s, pre ++ OEnding i :: post)) -> served pre ->
  confirmed i pre = map snd (added pre).
Proof.
  intros R Sv. destruct (run_split _ _ _ _ _ _ R) as (l1 & e & l2 & s1 & s2 & -> & R1 & E & _).
  pose proof (reach_inv _ _ _ _ R1 Sv) as I.
  destruct (ending_at _ _ _ _ E) as (t & H & Ph & G & _).
  destruct (reach_thread _ _ _ _ I H ltac:(destruct Ph; congruence)) as (Q & T1 & T2 & _).
  unfold confirmed; rewrite T2; cbn [fst].
  unfold getNewCheckpoints in G. rewrite Q in G.
  rewrite <- (firstn_skipn (rt_idx t) (map snd (added pre))) at 2. rewrite G, app_nil_r; reflexivity.
Qed.

Lemma told_again ports l s outs i t :
  rs_run (rsession_init ports) l = Some (Ret (s, outs)) -> served outs -> rs_abort s = false ->
  nth_error (rs_threads s) i = Some t -> rt_ph t = PSleep \/ rt_ph t = PCheck /\ 0 < rt_timeout t ->
  confirmed i outs <> map snd (added outs) ->
  exists s' new, rs_run s [EThread i INone; EThread i (IWrite true)] = Some (Ret (s', [OTold i new])) /\
    map snd (added outs) = confirmed i outs ++ new.
Proof.
  intros R Sv Ab H Ph N. pose proof (reach_inv _ _ _ _ R Sv) as I.
  destruct (reach_thread _ _ _ _ I H ltac:(destruct Ph as [? | [? ?]]; congruence)) as (Q & T1 & T2 & _).
  set (g := map snd (added outs)) in *.
  assert (C : confirmed i outs = firstn (rt_idx t) g) by (unfold confirmed; rewrite T2; reflexivity).
  assert (G : getNewCheckpoints s (rt_idx t) <> []).
  { unfold getNewCheckpoints; rewrite Q; intros G. apply N. rewrite C.
    rewrite <- (firstn_skipn (rt_idx t) g) at 2. rewrite G, app_nil_r; reflexivity. }
  pose (t1 := go (mark (news t (skipn (rt_idx t) g)) RRunning) PSendGlobal).
  assert (E1 : rs_step s (EThread i INone) = Some (Ret (put s i t1, []))).
  { unfold rs_step, threadStep. rewrite H.
    assert (D : stateStep s i t INone = Some (Ret (put s i t1, []))).
    { unfold stateStep, checkForFinishOrNew.
      destruct Ph as [-> | [-> T]].
      - destruct (getNewCheckpoints s (rt_idx t)) eqn:Eg; [congruence|].
        rewrite <- Eg. unfold getNewCheckpoints; rewrite Q; reflexivity.
      - replace (rt_timeout t <=? 0) with false by (symmetry; apply Z.leb_gt; lia).
        destruct (getNewCheckpoints s (rt_idx t)) eqn:Eg; [congruence|].
        rewrite <- Eg. unfold getNewCheckpoints; rewrite Q; reflexivity. }
    rewrite Ab. destruct Ph as [P | [P _]]; rewrite P; cbn [andb]; exact D. }
  pose (t2 := go (index t1 (rt_idx t1) (rt_idx t1 + length (rt_new t1))) PRead).
  assert (E2 : rs_step (put s i t1) (EThread i (IWrite true)) = Some (Ret (put (put s i t1) i t2, [OTold i (skipn (rt_idx t) g)]))).
  { unfold rs_step, threadStep. cbn [rs_threads put]. rewrite (nth_set_same _ _ _ _ H).
    cbn [rt_ph t1 go rs_abort put]. rewrite Ab; reflexivity. }
  exists (put (put s i t1) i t2), (skipn (rt_idx t) g). split.
  - cbn [rs_run]. rewrite E1, E2. reflexivity.
  - rewrite C, firstn_skipn; reflexivity.
Qed.

(** ** A port that waits, and one that meets a sender of another version *)

Lemma hasRunning_other l : forall i j u, j <> i -> nth_error l j = Some u -> is_running u = true -> hasRunning l i = true.
Proof.
  induction l as [|a l IH]; intros [|i] [|j] u N H R; cbn in *; try congruence.
  - apply existsb_exists. exists u. split; [eapply nth_error_In; exact H|exact R].
  - injection H as <-. rewrite R. reflexivity.
  - rewrite (IH i j u); [apply Bool.orb_true_r|congruence|exact H|exact R].
Qed.
Lemma hasRunning_none l : forall i, (forall j u, j <> i -> nth_error l j = Some u -> is_running u = false) -> hasRunning l i = false.
Proof.
  induction l as [|a l IH]; intros [|i] H; cbn; try reflexivity.
  - destruct (existsb is_running l) eqn:E; [|reflexivity]. apply existsb_exists in E as (u & I & R).
    apply In_nth_error in I as [j J]. rewrite (H (S j) u ltac:(discriminate) J) in R. discriminate.
  - rewrite (H O a ltac:(discriminate) eq_refl), (IH i); [reflexivity|].
    intros j u N J. apply (H (S j) u); [congruence|exact J].
Qed.

Lemma nothing_new ports l s outs i t :
  rs_run (rsession_init ports) l = Some (Ret (s, outs)) -> served outs ->
  nth_error (rs_threads s) i = Some t -> rt_ph t = PSleep \/ rt_ph t = PCheck ->
  confirmed i outs = map snd (added outs) -> getNewCheckpoints s (rt_idx t) = [].
Proof.
  intros R Sv H Ph N. pose proof (reach_inv _ _ _ _ R Sv) as I.
  destruct (reach_thread _ _ _ _ I H ltac:(destruct Ph; congruence)) as (Q & T1 & T2 & _).
  set (g := map snd (added outs)) in *.
  assert (C : confirmed i outs = firstn (rt_idx t) g) by (unfold confirmed; rewrite T2; reflexivity).
  unfold getNewCheckpoints; rewrite Q. rewrite C in N. rewrite <- (firstn_skipn (rt_idx t) g) in N at 2.
  rewrite <- (app_nil_r (firstn _ g)) in N at 1. apply app_inv_head in N. symmetry; exact N.
Qed.

Lemma keeps_waiting ports l s outs i t :
  rs_run (rsession_init ports) l = Some (Ret (s, outs)) -> served outs ->
  nth_error (rs_threads s) i = Some t -> rt_ph t = PSleep -> confirmed i outs = map snd (added outs) ->
  ((exists j u, j <> i /\ nth_error (rs_threads s) j = Some u /\ rt_st u = RRunning) ->
   exists s', rs_run s [EThread i INone; EThread i (IWrite true)] = Some (Ret (s', [OWait i])) /\
     nth_error (rs_threads s') i = Some (go t PCheck) /\
     forall k, k <> i -> nth_error (rs_threads s') k = nth_error (rs_threads s) k) /\
  ((forall j u, j <> i -> nth_error (rs_threads s) j = Some u -> rt_st u <> RRunning) -> rs_abort s = false ->
   exists s', rs_run s [EThread i INone; EThread i (IWrite true)] = Some (Ret (s', [OEnding i; ODone i]))).
Proof.
  intros R Sv H Ph N. pose proof (nothing_new _ _ _ _ _ _ R Sv H (or_introl Ph) N) as G. split.
  - intros (j & u & J & U & W).
    assert (X : hasRunning (rs_threads s) i = true)
      by (apply (hasRunning_other _ i j u J U); unfold is_running; rewrite W; reflexivity).
    exists (put (put s i (go t PSendWait)) i (go t PCheck)). split.
    + cbn [rs_run rs_step]. unfold threadStep at 1. rewrite H, Ph. cbn [inside negb]. rewrite Bool.andb_false_r.
      unfold stateStep. rewrite Ph. unfold checkForFinishOrNew. rewrite G, X.
      unfold threadStep. cbn [rs_threads put]. rewrite (nth_set_same _ _ _ _ H).
      cbn [rt_ph go rs_abort put inside negb]. rewrite Bool.andb_false_r. reflexivity.
    + split.
      * cbn [rs_threads put]. apply (nth_set_same _ i (go t PSendWait)). apply (nth_set_same _ _ _ _ H).
      * intros k K. cbn [rs_threads put]. rewrite !nth_set_other by congruence. reflexivity.
  - intros W Ab.
    assert (X : hasRunning (rs_threads s) i = false).
    { apply hasRunning_none. intros j u J U. specialize (W j u J U). unfold is_running. destruct (rt_st u); congruence. }
    eexists. cbn [rs_run rs_step]. unfold threadStep at 1. rewrite H, Ph. cbn [inside negb]. rewrite Bool.andb_false_r.
    unfold stateStep. rewrite Ph. unfold checkForFinishOrNew. rewrite G, X.
    unfold threadStep. cbn [rs_threads put]. rewrite (nth_set_same _ _ _ _ H).
    cbn [rt_ph go mark rs_abort put inside negb]. rewrite Ab. reflexivity.
Qed.

Lemma thr_step s i t a : nth_error (rs_threads s) i = Some t -> rs_abort s = false -> rt_ph t <> PGone -> rt_ph t <> PEnd ->
  rs_step s (EThread i a) = stateStep s i t a.
Proof.
  intros H Ab G E. cbn [rs_step]. unfold threadStep. rewrite H, Ab. destruct (rt_ph t); cbn [andb]; congruence.
Qed.
Lemma run_cons s e s1 o r s2 o2 : rs_step s e = Some (Ret (s1, o)) -> rs_run s1 r = Some (Ret (s2, o2)) ->
  rs_run s (e :: r) = Some (Ret (s2, o ++ o2)).
Proof. intros A B. cbn [rs_run]. rewrite A, B. reflexivity. Qed.

Lemma after_mismatch s i t b : rs_abort s = false -> nth_error (rs_threads s) i = Some t -> rt_ph t = PRead ->
  (exists s' u, rs_run s [EThread i (ICmd (CSettingsAbort VERSION_MISMATCH)); EThread i (IWrite b); EThread i IAccept;
                          EThread i (IWrite true)] = Some (Ret (s', [OAccepted i; OLocal i (rt_ck t)])) /\
     nth_error (rs_threads s') i = Some u /\ rt_ph u = PRead /\ rt_err u = OK /\ rt_unver u = [] /\
     rs_ckpts s' = rs_ckpts s) /\
  forall e, e = VERSION_INCOMPATIBLE \/ e = ID_MISMATCH ->
   exists s' u, rs_run s [EThread i (ICmd (CSettingsAbort e)); EThread i (IWrite b); EThread i INone] =
      Some (Ret (s', [OAdded i (rt_ck t)])) /\
     nth_error (rs_threads s') i = Some u /\ rt_err u = e /\ rs_ckpts s' = rs_ckpts s ++ [rt_ck t].
Proof.
  intros Ab H Ph. split.
  - pose (t1 := fail t VERSION_MISMATCH PSendAbort). pose (t2 := go t1 PAccept).
    pose (t3 := fail (index (blocks t2 (rt_ck t2) []) (rt_idx t2) (rt_idx t2)) OK PSendLocal). pose (t4 := go t3 PRead).
    pose (s1 := put s i t1). pose (s2 := put s1 i t2). pose (s3 := put s2 i t3). pose (s4 := put s3 i t4).
    assert (H1 : nth_error (rs_threads s1) i = Some t1) by (apply (nth_set_same _ _ _ _ H)).
    assert (H2 : nth_error (rs_threads s2) i = Some t2) by (apply (nth_set_same _ _ _ _ H1)).
    assert (H3 : nth_error (rs_threads s3) i = Some t3) by (apply (nth_set_same _ _ _ _ H2)).
    assert (H4 : nth_error (rs_threads s4) i = Some t4) by (apply (nth_set_same _ _ _ _ H3)).
    exists s4, t4. split; [|split; [exact H4|repeat split]].
    apply (run_cons s _ s1 [] _ s4 [OAccepted i; OLocal i (rt_ck t)]).
    { rewrite (thr_step _ _ _ _ H Ab) by (rewrite Ph; discriminate). unfold stateStep. rewrite Ph. reflexivity. }
    apply (run_cons s1 _ s2 [] _ s4 [OAccepted i; OLocal i (rt_ck t)]).
    { rewrite (thr_step _ _ _ _ H1 Ab) by discriminate. reflexivity. }
    apply (run_cons s2 _ s3 [OAccepted i] _ s4 [OLocal i (rt_ck t)]).
    { rewrite (thr_step _ _ _ _ H2 Ab) by discriminate. reflexivity. }
    apply (run_cons s3 _ s4 [OLocal i (rt_ck t)] _ s4 []); [|reflexivity].
    rewrite (thr_step _ _ _ _ H3 Ab) by discriminate. reflexivity.
  - intros e E. pose (t1 := fail t e PSendAbort). pose (t2 := go t1 PFinish). pose (t3 := go (mark t2 RFinished) PEnd).
    pose (s1 := put s i t1). pose (s2 := put s1 i t2). pose (s3 := put (addCheckpoint s2 (rt_ck t)) i t3).
    assert (H1 : nth_error (rs_threads s1) i = Some t1) by (apply (nth_set_same _ _ _ _ H)).
    assert (H2 : nth_error (rs_threads s2) i = Some t2) by (apply (nth_set_same _ _ _ _ H1)).
    assert (H3 : nth_error (rs_threads s3) i = Some t3) by (apply (nth_set_same _ _ _ _ H2)).
    exists s3, t3. split; [|split; [exact H3|split; reflexivity]].
    apply (run_cons s _ s1 [] _ s3 [OAdded i (rt_ck t)]).
    { rewrite (thr_step _ _ _ _ H Ab) by (rewrite Ph; discriminate). unfold stateStep. rewrite Ph.
      destruct E as [-> | ->]; reflexivity. }
    apply (run_cons s1 _ s2 [] _ s3 [OAdded i (rt_ck t)]).
    { rewrite (thr_step _ _ _ _ H1 Ab) by discriminate. destruct E as [-> | ->]; reflexivity. }
    apply (run_cons s2 _ s3 [OAdded i (rt_ck t)] _ s3 []); [|reflexivity].
    rewrite (thr_step _ _ _ _ H2 Ab) by discriminate. destruct E as [-> | ->]; reflexivity.
Qed.

(** ** The end of the transfer *)

Definition over_ph (p : rphase) : bool :=
  match p with PEnd | PGone | PSendDone | PAwaitAck => true | _ => false end.

Definition settled (j : nat) (outs : list rout) : Prop :=
  ending j outs = true \/ In j (map fst (added outs)).

Definition fthread (j : nat) (outs : list rout) (u : rthread) : Prop :=
  (rt_st u = RFinished \/ over_ph (rt_ph u) = true -> settled j outs) /\
  (rt_st u = RWaiting -> waiting_ph (rt_ph u) = true) /\
  (waiting_ph (rt_ph u) = true -> rt_err u = OK).
Definition finv (s : rsession) (outs : list rout) : Prop :=
  rs_abort s = false /\
  forall j u, nth_error (rs_threads s) j = Some u -> fthread j outs u.

Lemma settled_more j outs x : x <> OSession -> settled j outs -> settled j (outs ++ [x]).
Proof.
  intros Hx [H | H]; [left|right].
  - rewrite ending_app; cbn. destruct x; cbn; try congruence. rewrite H; reflexivity.
  - rewrite added_app; cbn. destruct x; cbn; try congruence. rewrite map_app; apply in_or_app; auto.
Qed.

Lemma fput s outs j t t' o (ts : list rthread) :
  finv s outs -> nth_error (rs_threads s) j = Some t -> ts = set_nth (rs_threads s) j t' ->
  (o = [] \/ exists x, o = [x] /\ x <> OSession) ->
  fthread j (outs ++ o) t' ->
  forall k u, nth_error ts k = Some u -> fthread k (outs ++ o) u.
Proof.
  intros (A & F) H -> Ho T k u Hk.
  assert (M : settled k outs -> settled k (outs ++ o)).
  { destruct Ho as [-> | [x [-> Hx]]]; [rewrite app_nil_r; auto|]. apply settled_more; exact Hx. }
  destruct (Nat.eq_dec j k) as [<- | Hn].
  - rewrite (nth_set_same _ _ _ _ H) in Hk; injection Hk as <-. exact T.
  - rewrite nth_set_other in Hk by exact Hn. destruct (F k u Hk) as (F1 & F2 & F3).
    split; [auto|]. split; assumption.
Qed.

Definition orderly_event (e : revent) : Prop :=
  match e with EAbort => False | EThread _ (INonRetryable _) => False | _ => True end.
Lemma orderly_forall l : orderly l -> Forall orderly_event l.
Proof.
  intros [A B]. apply Forall_forall. intros [i a| |] H; cbn; auto.
  destruct a; auto. eapply B; exact H.
Qed.

Lemma settled_end j outs : settled j (outs ++ [OEnding j]).
Proof. left; rewrite ending_app; cbn. rewrite Nat.eqb_refl, Bool.orb_true_r; reflexivity. Qed.
Lemma settled_added j outs c : settled j (outs ++ [OAdded j c]).
Proof. right; rewrite added_app; cbn. rewrite map_app; apply in_or_app; right; left; reflexivity. Qed.

Lemma leave_threads s i t : rs_threads (fst (leave s i t)) = set_nth (rs_threads s) i (go (mark t RFinished) PGone).
Proof.
  unfold leave; cbn. destruct (length _); [reflexivity|].
  destruct (Nat.eqb _ _); [|reflexivity]. unfold endCurGlobalSession; cbn. destruct (rs_started s); reflexivity.
Qed.
Lemma leave_abort s i t : rs_abort (fst (leave s i t)) = rs_abort s.
Proof.
  unfold leave; cbn. destruct (length _); [reflexivity|].
  destruct (Nat.eqb _ _); [|reflexivity]. unfold endCurGlobalSession; cbn. destruct (rs_started s); reflexivity.
Qed.

Lemma step_finv s outs e s' o : finv s outs -> orderly_event e -> rs_step s e = Some (Ret (s', o)) ->
  finv s' (outs ++ o).
Proof.
  intros I Oe E. pose proof I as (A & F). apply step_cases in E. destruct e as [i a| |]; [|contradiction|].
  - destruct E as (t & H & Hp & [(t' & _ & _ & Hd & E) | (_ & He & E)]).
    + destruct Hd as [Hd | Hd]; [congruence|].
      pose proof (leave_threads s i t') as Lt. pose proof (leave_abort s i t') as La. rewrite <- E in Lt, La. cbn in Lt, La.
      assert (o = [OGone i]) as -> by (unfold leave in E; injection E as _ ->; reflexivity).
      split; [congruence|]. eapply fput; [exact I|exact H|exact Lt| |].
      { right; eexists; split; [reflexivity|discriminate]. }
      destruct (F i t H) as (F1 & F2 & F3). unfold fthread; cbn. split; [|split; discriminate].
      intros _. apply settled_more; [discriminate|]. apply F1. rewrite Hd; auto.
    + destruct (F i t H) as (F1 & F2 & F3). destruct a as [ok| | |e| |e|e|ok|c|e|e|e|]; try contradiction;
      state_cases E; (split; [exact A|]);
        (eapply fput; [exact I|exact H|reflexivity| |]);
        try (left; reflexivity); try (right; eexists; split; [reflexivity|discriminate]).
      all: rewrite ?app_nil_r.
      all: unfold fthread; cbn in *.
      all: try (split; [intros _; apply settled_end || apply settled_added|split; try discriminate; auto]; fail).
      all: try (split; [try (intros [X|X]; [|discriminate X]; try discriminate X; try (apply settled_more; [discriminate|]); auto)
                       |split; [try discriminate; intros X; specialize (F2 X); try discriminate F2; auto|try discriminate; auto]]; fail).
      all: try (split; [try (intros [X|X]; try (apply settled_more; [discriminate|]); auto)
                       |split; [try discriminate; intros X; specialize (F2 X); try discriminate F2; auto|try discriminate; auto]]; fail).
      1-4: rewrite Ph; cbn; split; [intros X; try (apply settled_more; [discriminate|]); auto|auto].
      split; [intros [X | X]; discriminate|]. split; [auto|]. intros _; apply Z.eqb_eq; assumption.
  - destruct E as (_ & -> & ->). split; [exact A|].
    intros j u Hj. cbn in Hj. apply nth_error_In, in_map_iff in Hj as (p & <- & _).
    unfold fthread; cbn. split; [intros [X | X]; discriminate|]. split; discriminate.
Qed.

Lemma run_finv l : forall s outs s' o, finv s outs -> Forall orderly_event l ->
  rs_run s l = Some (Ret (s', o)) -> finv s' (outs ++ o).
Proof.
  induction l as [|e l IH]; intros s outs s' o I Oe R; cbn in R.
  - injection R as <- <-. rewrite app_nil_r. exact I.
  - destruct (rs_step s e) as [[[s1 o1]| |]|] eqn:E; try discriminate.
    destruct (rs_run s1 l) as [[[s2 o2]| |]|] eqn:R1; try discriminate.
    injection R as <- <-. rewrite app_assoc. inversion Oe; subst.
    eapply IH; [|eassumption|exact R1]. eapply step_finv; eassumption.
Qed.

Lemma init_finv ports : finv (rsession_init ports) [].
Proof.
  split; [reflexivity|]. intros j u H. cbn in H.
  apply nth_error_In, in_map_iff in H as (p & <- & _).
  unfold fthread; cbn. split; [intros [X | X]; discriminate|]. split; discriminate.
Qed.

Lemma not_running l : forall i j u, hasRunning l i = false -> i <> j -> nth_error l j = Some u ->
  rt_st u <> RRunning.
Proof.
  induction l as [|t l IH]; intros i j u H Hn Hj; [destruct j; discriminate|].
  destruct i as [|i], j as [|j]; cbn in H, Hj; try congruence.
  - intros X. assert (existsb is_running l = true); [|congruence].
    apply existsb_exists. exists u. split; [eapply nth_error_In; exact Hj|]. unfold is_running; rewrite X; reflexivity.
  - injection Hj as ->. apply Bool.orb_false_elim in H as [H _]. unfold is_running in H. destruct (rt_st u); congruence.
  - apply Bool.orb_false_elim in H as [_ H]. eapply IH; [exact H|intros Q; apply Hn; rewrite Q; reflexivity|exact Hj].
Qed.


Lemma end_for_all ports l s outs e s' i :
  rs_run (rsession_init ports) l = Some (Ret (s, outs)) -> served outs -> orderly l ->
  rs_step s e = Some (Ret (s', [OEnding i])) ->
  forall j u, j <> i -> nth_error (rs_threads s) j = Some u ->
  waits u \/ ending j outs = true \/ exists c, In (j, c) (added outs) /\ In c (confirmed i outs).
Proof.
  intros R Sv Or E j u Hn Hj.
  pose proof (run_finv l _ [] _ _ (init_finv ports) (orderly_forall l Or) R) as (_ & F). cbn [app] in F.
  destruct (ending_at _ _ _ _ E) as (t & H & Ph & G & Hr).
  pose proof (not_running _ _ _ _ Hr (not_eq_sym Hn) Hj) as N.
  destruct (F j u Hj) as (F1 & F2 & F3). destruct (rt_st u) eqn:Eu; [congruence| |].
  - left. unfold waits. specialize (F2 eq_refl). auto.
  - destruct F1 as [F1 | F1]; [auto|auto|]. right; right.
    apply in_map_iff in F1 as ([j' c] & Ej & F1). cbn in Ej; subst j'. exists c; split; [exact F1|].
    assert (C : confirmed i outs = map snd (added outs)).
    { apply (end_after_all ports (l ++ [e]) s' outs i []); [|exact Sv].
      clear - R E. revert R E. generalize (rsession_init ports); intros s0. revert s0 s outs.
      induction l as [|x l IH]; intros s0 s outs R E; cbn in R |- *.
      - injection R as <- <-. rewrite E; reflexivity.
      - destruct (rs_step s0 x) as [[[s1 o1]| |]|]; try discriminate.
        destruct (rs_run s1 l) as [[[s2 o2]| |]|] eqn:R1; try discriminate.
        injection R as <- <-. rewrite (IH _ _ _ R1 E), app_assoc; reflexivity. }
    rewrite C. apply in_map_iff. exists (j, c); auto.
Qed.
