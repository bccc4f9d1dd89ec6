From Verif Require Import Model.ThreadsCtl Spec.ThreadsCtlSpec Proofs.QueueMonitorFacts Proofs.CountFacts.

(** ---- Barrier ---- *)
Definition nO (t : bst) : nat := match t with BOut => 1 | _ => 0 end.
Definition nA (t : bst) : nat := match t with BAsleep => 1 | _ => 0 end.
Definition nW (t : bst) : nat := match t with BWoken => 1 | _ => 0 end.
Definition nP (t : bst) : nat := match t with BPassed => 1 | _ => 0 end.

Definition binv (n : nat) (b : barrier) : Prop :=
  length (b_st b) = n /\
  (b_complete b = true -> csum nO (b_st b) = 0%nat /\ csum nA (b_st b) = 0%nat) /\
  (b_complete b = false ->
     b_hits b = Z.of_nat (csum nA (b_st b) + csum nW (b_st b)) /\
     b_threads b = Z.of_nat (csum nO (b_st b) + csum nA (b_st b) + csum nW (b_st b)) /\
     csum nP (b_st b) = 0%nat /\
     (csum nO (b_st b) = 0%nat -> csum nA (b_st b) + csum nW (b_st b) = 0)%nat /\
     (csum nO (b_st b) = 0%nat -> n = 0%nat)).

Ltac bset H f := let E := fresh "E" in
  match goal with
  | |- context [csum f (set_nth ?l ?i ?x)] => pose proof (csum_set f l i _ x H) as E; cbn [nO nA nW nP] in E
  end.

Lemma wakes l : csum nO (map b_wake l) = csum nO l /\ csum nA (map b_wake l) = 0%nat /\
  csum nW (map b_wake l) = (csum nA l + csum nW l)%nat /\ csum nP (map b_wake l) = csum nP l.
Proof.
  rewrite !csum_map. induction l as [|t l IH]; cbn; [auto|].
  destruct IH as [-> [-> [-> ->]]]. destruct t; cbn; lia.
Qed.
Lemma nth_wake l i t : nth_error l i = Some t -> nth_error (map b_wake l) i = Some (b_wake t).
Proof. intros H. rewrite nth_error_map, H; reflexivity. Qed.

(** One step: the invariant is kept, and the process does not stop. *)
Lemma binv_step n b r : binv n b -> bstep b r -> exists b', r = Some b' /\ binv n b'.
Proof.
  intros (HL & HT & HF) S. destruct S as [b i r H E|b i H E|b i H|b i H|b i t r H Ht E|b i t H Ht E].
  - exists r; split; [reflexivity|]. revert E. unfold barrier_execute.
    destruct (b_complete b) eqn:Ec; [discriminate|].
    destruct (HF eq_refl) as (Hh & Hn & HP & Hz & Hz').
    pose proof (csum_one nO _ _ _ H) as HO; cbn in HO.
    unfold checkForFinish; cbn [b_hits b_threads b_complete b_st].
    destruct (b_threads b <? b_hits b + 1) eqn:Elt; [discriminate|].
    destruct (b_hits b + 1 =? b_threads b) eqn:Eeq; cbn [obind]; intros E; injection E as <-.
    + unfold b_set; cbn [b_hits b_threads b_complete b_st].
      destruct (wakes (b_st b)) as (WO & WA & WW & WP). pose proof (nth_wake _ _ _ H) as H'.
      cbn in H'.
      split; [cbn; rewrite set_nth_length, map_length; exact HL|].
      split; [|discriminate]. intros _. cbn.
      apply Z.eqb_eq in Eeq. bset H' nO. bset H' nA. lia.
    + unfold b_set; cbn [b_hits b_threads b_complete b_st]. try rewrite Ec.
      split; [cbn; rewrite set_nth_length; exact HL|].
      split; [discriminate|]. intros _; cbn.
      apply Z.eqb_neq in Eeq. bset H nO. bset H nA. bset H nW. bset H nP. lia.
  - exfalso. revert E. unfold barrier_execute.
    pose proof (csum_one nO _ _ _ H) as HO; cbn in HO.
    destruct (b_complete b) eqn:Ec.
    { destruct (HT eq_refl). lia. }
    destruct (HF eq_refl) as (Hh & Hn & HP & Hz & Hz').
    unfold checkForFinish; cbn [b_hits b_threads b_complete b_st].
    destruct (Z.ltb_spec (b_threads b) (b_hits b + 1)); [lia|].
    destruct (b_hits b + 1 =? b_threads b); discriminate.
  - eexists; split; [reflexivity|]. unfold barrier_woken, b_set.
    split; [cbn; rewrite set_nth_length; exact HL|].
    destruct (b_complete b) eqn:Ec; cbn.
    + split; [intros _|discriminate]. destruct (HT eq_refl). bset H nO. bset H nA. lia.
    + split; [discriminate|intros _]. destruct (HF eq_refl) as (Hh & Hn & HP & Hz & Hz').
      bset H nO. bset H nA. bset H nW. bset H nP. lia.
  - eexists; split; [reflexivity|]. unfold b_set.
    split; [cbn; rewrite set_nth_length; exact HL|].
    pose proof (csum_one nA _ _ _ H) as HA; cbn in HA. cbn.
    split; intros Ec.
    + destruct (HT Ec). lia.
    + destruct (HF Ec) as (Hh & Hn & HP & Hz & Hz').
      bset H nO. bset H nA. bset H nW. bset H nP. lia.
  - exists r; split; [reflexivity|]. revert E. unfold barrier_deregister.
    destruct (b_complete b) eqn:Ec.
    { intros E; injection E as <-. unfold b_set.
      split; [cbn; rewrite set_nth_length; exact HL|]. cbn. try rewrite Ec.
      split; [intros _|discriminate]. destruct (HT eq_refl).
      destruct Ht as [-> | ->]; bset H nO; bset H nA; lia. }
    destruct (HF eq_refl) as (Hh & Hn & HP & Hz & Hz').
    destruct Ht as [-> | ->].
    2:{ pose proof (csum_one nP _ _ _ H) as HO; cbn in HO. lia. }
    pose proof (csum_one nO _ _ _ H) as HO; cbn in HO.
    unfold checkForFinish; cbn [b_hits b_threads b_complete b_st].
    destruct (b_threads b - 1 <? b_hits b) eqn:Elt; [discriminate|].
    destruct (b_hits b =? b_threads b - 1) eqn:Eeq; cbn [obind snd]; intros E; injection E as <-.
    + unfold b_set; cbn [b_hits b_threads b_complete b_st].
      destruct (wakes (b_st b)) as (WO & WA & WW & WP). pose proof (nth_wake _ _ _ H) as H'.
      cbn in H'.
      split; [cbn; rewrite set_nth_length, map_length; exact HL|].
      split; [|discriminate]. intros _. cbn.
      apply Z.eqb_eq in Eeq. bset H' nO. bset H' nA. lia.
    + unfold b_set; cbn [b_hits b_threads b_complete b_st]. try rewrite Ec.
      split; [cbn; rewrite set_nth_length; exact HL|].
      split; [discriminate|]. intros _; cbn.
      apply Z.eqb_neq in Eeq. bset H nO. bset H nA. bset H nW. bset H nP. lia.
  - exfalso. revert E. unfold barrier_deregister.
    destruct (b_complete b) eqn:Ec; [discriminate|].
    destruct (HF eq_refl) as (Hh & Hn & HP & Hz & Hz').
    destruct Ht as [-> | ->].
    2:{ pose proof (csum_one nP _ _ _ H) as HO; cbn in HO. lia. }
    pose proof (csum_one nO _ _ _ H) as HO; cbn in HO.
    unfold checkForFinish; cbn [b_hits b_threads b_complete b_st].
    destruct (Z.ltb_spec (b_threads b - 1) (b_hits b)); [lia|].
    destruct (b_hits b =? b_threads b - 1); discriminate.
Qed.
Lemma binv_init n : binv n (barrier_init n).
Proof.
  unfold barrier_init, binv; cbn. rewrite !csum_repeat, repeat_length; cbn.
  repeat split; try discriminate; lia.
Qed.
Lemma binv_reach n b : breach n b -> binv n b.
Proof.
  induction 1 as [|b b' _ IH S]; [apply binv_init|].
  destruct (binv_step _ _ _ IH S) as [b'' [E H]]. injection E as <-; exact H.
Qed.

Lemma barrier_safe n b : breach n b -> ~ bstep b None.
Proof.
  intros R S. destruct (binv_step _ _ _ (binv_reach _ _ R) S) as [b' [E _]]. discriminate.
Qed.
Lemma barrier_not_early n b i j : breach n b -> released b i -> ~ still_expected b j.
Proof.
  intros R Hi Hj. destruct (binv_reach _ _ R) as (HL & HT & HF).
  pose proof (csum_one nO _ _ _ Hj) as HO; cbn in HO.
  pose proof (csum_one nP _ _ _ Hi) as HP; cbn in HP.
  destruct (b_complete b); [destruct (HT eq_refl); lia|].
  destruct (HF eq_refl) as (_ & _ & HP' & _). lia.
Qed.
Lemma complete_step b r b' i : bstep b r -> r = Some b' -> b_complete b = true ->
  nth_error (b_st b) i = Some BWoken ->
  b_complete b' = true /\ (released b' i \/ nth_error (b_st b') i = Some BWoken).
Proof.
  intros S Er Ec H.
  destruct S as [b j r Hj E|b j Hj E|b j Hj|b j Hj|b j t r Hj Ht E|b j t Hj Ht E]; try discriminate;
    injection Er as <-.
  - unfold barrier_execute in E; rewrite Ec in E; discriminate.
  - unfold barrier_woken; rewrite Ec; cbn. split; [exact Ec|].
    destruct (Nat.eq_dec j i) as [-> |Hn].
    + left. unfold released; cbn. rewrite (nth_set_same _ _ _ _ H); reflexivity.
    + right. rewrite nth_set_other by exact Hn. exact H.
  - split; [exact Ec|]. right; cbn. destruct (Nat.eq_dec j i) as [-> |Hn]; [congruence|].
    rewrite nth_set_other by exact Hn. exact H.
  - unfold barrier_deregister in E; rewrite Ec in E; injection E as <-. split; [exact Ec|].
    right; cbn. destruct (Nat.eq_dec j i) as [-> |Hn].
    + exfalso. destruct Ht; congruence.
    + rewrite nth_set_other by exact Hn. exact H.
Qed.
(** Once nobody is expected, every waiter has been woken and passes when it next runs. *)
Lemma barrier_releases n b i : breach n b -> (forall j, ~ still_expected b j) -> waiting b i ->
  nth_error (b_st b) i = Some BWoken /\
  bstep b (Some (b_set b i BPassed)) /\
  forall b', bstep b (Some b') -> (forall j, ~ still_expected b' j) /\
    (released b' i \/ nth_error (b_st b') i = Some BWoken).
Proof.
  intros R Hno Hw. pose proof (binv_reach _ _ R) as (HL & HT & HF).
  assert (HO : csum nO (b_st b) = 0%nat).
  { destruct (csum nO (b_st b)) eqn:E; [reflexivity|]. exfalso.
    destruct (csum_in_pos nO (b_st b)) as [j [t [Hj Ht]]]; [lia|].
    destruct t; cbn in Ht; try lia. exact (Hno j Hj). }
  assert (Ec : b_complete b = true).
  { destruct (b_complete b) eqn:Ec; [reflexivity|]. destruct (HF eq_refl) as (_ & _ & _ & Hz & _).
    specialize (Hz HO). destruct Hw as [H|H].
    - pose proof (csum_one nA _ _ _ H) as HA; cbn in HA; lia.
    - pose proof (csum_one nW _ _ _ H) as HA; cbn in HA; lia. }
  destruct (HT Ec) as [_ HA].
  destruct Hw as [H|H].
  { pose proof (csum_one nA _ _ _ H) as HA'; cbn in HA'; lia. }
  split; [exact H|split].
  - replace (b_set b i BPassed) with (barrier_woken b i) by (unfold barrier_woken; rewrite Ec; reflexivity).
    apply BS_woken; exact H.
  - intros b' S. destruct (complete_step _ _ _ _ S eq_refl Ec H) as [Ec' Hi].
    split; [|exact Hi].
    intros j Hj. destruct (binv_step _ _ _ (binv_reach _ _ R) S) as [b'' [E (_ & HT' & _)]].
    injection E as <-. destruct (HT' Ec') as [HO' _].
    pose proof (csum_one nO _ _ _ Hj) as HO2; cbn in HO2; lia.
Qed.
(** A thread that neither arrives nor leaves holds everybody. *)
Lemma barrier_held n dead b i : breach_without n dead b -> (dead < n)%nat -> ~ released b i.
Proof.
  intros R Hd Hr.
  assert (RB : breach n b /\ still_expected b dead).
  { clear Hr. induction R as [|b b' R IH S Hd'].
    - split; [constructor|]. unfold still_expected, barrier_init; cbn.
      rewrite nth_error_repeat by exact Hd; reflexivity.
    - split; [eapply BRS; [exact (proj1 IH)|exact S]|exact Hd']. }
  exact (barrier_not_early _ _ _ _ (proj1 RB) Hr (proj2 RB)).
Qed.

(** ---- Funnel ---- *)
Definition fW (t : fst_) : nat := match t with FWorking => 1 | _ => 0 end.
Definition fA (t : fst_) : nat := match t with FAsleep => 1 | _ => 0 end.
Definition fK (t : fst_) : nat := match t with FWoken | FLoop => 1 | _ => 0 end.
Definition finv (f : funnel) : Prop :=
  csum fW (f_st f) = match f_status f with FProgress => 1 | _ => 0 end%nat /\
  f_successes f = match f_status f with FEnd => 1 | _ => 0 end%nat /\
  (f_status f = FEnd -> csum fA (f_st f) = 0%nat) /\
  (f_status f = FStart -> (0 < csum fA (f_st f))%nat -> (0 < csum fK (f_st f))%nat).

Ltac fset H f := let E := fresh "E" in
  match goal with
  | |- context [csum f (set_nth ?l ?i ?x)] => pose proof (csum_set f l i _ x H) as E; cbn [fW fA fK] in E
  end.
Ltac fsets H := try fset H fW; try fset H fA; try fset H fK.

Lemma f_wakes l : csum fW (map f_wake l) = csum fW l /\ csum fA (map f_wake l) = 0%nat.
Proof.
  rewrite !csum_map. induction l as [|t l IH]; cbn; [auto|].
  destruct IH as [-> ->]. destruct t; cbn; lia.
Qed.
Lemma f_notify_facts a b : f_notify_one a b ->
  csum fW b = csum fW a /\ ((0 < csum fA a)%nat -> (0 < csum fK b)%nat) /\
  (csum fA a = 0%nat -> b = a) /\
  (forall i t, nth_error a i = Some t -> t <> FAsleep -> nth_error b i = Some t).
Proof.
  intros [ths j H|ths H].
  - pose proof (csum_set fW _ _ _ FWoken H) as E1. pose proof (csum_one fA _ _ _ H) as E2.
    pose proof (csum_set fK _ _ _ FWoken H) as E3. cbn in E1, E2, E3.
    repeat split; try lia. intros i t Hi Ht.
    destruct (Nat.eq_dec j i) as [-> |Hn]; [congruence|rewrite nth_set_other by exact Hn; exact Hi].
  - repeat split; auto. intros Hp. exfalso. destruct (csum_in_pos _ _ Hp) as [i [t [Hi Ht]]].
    destruct t; cbn in Ht; try lia. apply H. eapply nth_error_In; exact Hi.
Qed.
Lemma finv_step f f' : finv f -> fstep f f' -> finv f'.
Proof.
  intros (HW & HS & HE & HA) [S|S].
  - destruct S as [f i H|f i H|f i H|f i H|f i ths H Hn].
    + unfold funnel_getStatus. pose proof (csum_set fW _ _ _ FWorking H) as E1. cbn in E1.
      destruct (f_status f) eqn:Es; unfold finv; cbn; rewrite ?Es; fsets H;
        repeat split; try discriminate; try lia; intros _; try specialize (HE eq_refl);
        try specialize (HA eq_refl); lia.
    + unfold funnel_wait, finv; cbn. destruct (f_status f) eqn:Es; cbn; fsets H;
        repeat split; try discriminate; try lia; intros _; try specialize (HE eq_refl);
        try specialize (HA eq_refl); lia.
    + unfold finv; cbn. fsets H. repeat split; try lia; intros E'; [specialize (HE E')|specialize (HA E')]; lia.
    + unfold funnel_success, finv; cbn. destruct (f_wakes (f_st f)) as [W1 W2].
      assert (H' : nth_error (map f_wake (f_st f)) i = Some FWorking)
        by (rewrite nth_error_map, H; reflexivity).
      pose proof (csum_one fW _ _ _ H) as E1; cbn in E1.
      destruct (f_status f) eqn:Es; try lia. fsets H'. repeat split; try discriminate; lia.
    + destruct (f_notify_facts _ _ Hn) as (N1 & N2 & N3 & N4).
      assert (H' : nth_error ths i = Some FWorking) by (apply N4; [exact H|discriminate]).
      unfold funnel_fail, finv; cbn. pose proof (csum_one fW _ _ _ H) as E1; cbn in E1.
      destruct (f_status f) eqn:Es; try lia. fsets H'. repeat split; try discriminate; try lia.
      intros _ Hp. destruct (csum fA (f_st f)) eqn:EA.
      * specialize (N3 eq_refl). subst ths. lia.
      * assert (Hk : (0 < csum fK ths)%nat) by (apply N2; lia). lia.
  - destruct S as [f i H|f i t H Ht|f i H|f i H]; unfold finv; cbn.
    1,3,4: fsets H; repeat split; try lia; intros E'; try specialize (HE E'); try specialize (HA E'); lia.
    destruct Ht as [-> |[-> | ->]]; fsets H; repeat split; try lia; intros E';
      try specialize (HE E'); try specialize (HA E'); lia.
Qed.
Lemma finv_reach n f : freach n f -> finv f.
Proof.
  induction 1 as [|f f' _ IH S]; [|eapply finv_step; eassumption].
  unfold finv, funnel_init; cbn. rewrite !csum_repeat; cbn. repeat split; try discriminate; lia.
Qed.

Lemma funnel_exclusive n f : freach n f -> at_most_one FWorking (f_st f).
Proof.
  intros R i j Hi Hj. destruct (finv_reach _ _ R) as (HW & _).
  destruct (Nat.eq_dec i j) as [E|Hn]; [exact E|].
  pose proof (csum_two fW _ _ _ _ _ Hn Hi Hj) as E; cbn in E. destruct (f_status f); lia.
Qed.
Lemma status_end f f' : f_status f = FEnd -> csum fW (f_st f) = 0%nat -> fstep f f' ->
  f_status f' = FEnd /\ f_runs f' = f_runs f.
Proof.
  intros He HW [S|S].
  - destruct S as [f i H|f i H|f i H|f i H|f i ths H Hn]; cbn; auto.
    + unfold funnel_getStatus; rewrite He; cbn; auto.
    + pose proof (csum_one fW _ _ _ H) as E1; cbn in E1; lia.
  - destruct S; cbn; auto.
Qed.
Lemma succ_end n f : freach n f -> f_successes f <> 0%nat -> f_status f = FEnd.
Proof.
  intros R Hs. destruct (finv_reach _ _ R) as (_ & HS & _). destruct (f_status f); congruence.
Qed.
Lemma funnel_once n f f' : freach n f -> f_successes f <> 0%nat -> fsteps f f' ->
  f_runs f' = f_runs f /\ f_successes f' = 1%nat /\ nobody FWorking (f_st f').
Proof.
  intros R Hs SS. pose proof (succ_end _ _ R Hs) as He. clear Hs.
  revert He R. induction SS as [f|f1 f2 f3 S SS IH]; intros He R.
  - destruct (finv_reach _ _ R) as (HW & HS & _). rewrite He in *. repeat split; auto.
    intros Hin. pose proof (csum_pos_in fW _ _ Hin) as E; cbn in E. lia.
  - destruct (finv_reach _ _ R) as (HW & HS & _). rewrite He in *.
    destruct (status_end _ _ He HW S) as [He' Hr].
    assert (R' : freach n f2) by (eapply FRS; eassumption).
    destruct (IH He' R') as (E1 & E2 & E3). rewrite E1. auto.
Qed.
(** A failure hands the work over. *)
Lemma after_fail n f i : freach n f -> nth_error (f_st f) i = Some FGaveUp \/ nth_error (f_st f) i = Some FLoop ->
  nobody FWorking (f_st f) -> f_successes f = 0%nat ->
  exists f', fsteps f f' /\ nth_error (f_st f') i = Some FWorking.
Proof.
  intros R Hi Hn Hs. destruct (finv_reach _ _ R) as (HW & HS & _).
  assert (Es : f_status f = FStart).
  { destruct (f_status f); [reflexivity| |congruence]. exfalso.
    destruct (csum_in_pos fW (f_st f)) as [j [t [Hj Ht]]]; [lia|].
    destruct t; cbn in Ht; try lia. apply Hn. eapply nth_error_In; exact Hj. }
  assert (G : forall g, f_status g = FStart -> nth_error (f_st g) i = Some FLoop ->
            exists f', fsteps g f' /\ nth_error (f_st f') i = Some FWorking).
  { intros g Eg Hg. exists (funnel_getStatus g i). split.
    - eapply FSS; [left; apply FI_get; exact Hg|apply FS0].
    - unfold funnel_getStatus; rewrite Eg; cbn. apply (nth_set_same _ _ _ _ Hg). }
  destruct Hi as [Hi|Hi]; [|apply G; assumption].
  destruct (G (f_set f i FLoop)) as [f' [S H]]; [exact Es|exact (nth_set_same _ _ _ _ Hi)|].
  exists f'; split; [|exact H]. eapply FSS; [|exact S]. right.
  eapply FE_again; [exact Hi|auto].
Qed.
Lemma notify_one_exists l : exists l', f_notify_one l l'.
Proof.
  destruct (csum fA l) eqn:E.
  - exists l. apply FN_lost. intros Hin. pose proof (csum_pos_in fA _ _ Hin) as P; cbn in P; lia.
  - destruct (csum_in_pos fA l) as [j [t [Hj Ht]]]; [lia|]. destruct t; cbn in Ht; try lia.
    eexists; apply FN_wake; exact Hj.
Qed.
(** Nobody waits for ever: when no thread inside can move, no thread is undecided. *)
Lemma funnel_not_stuck n f i t : freach n f -> nth_error (f_st f) i = Some t -> undecided t ->
  exists f', fint f f'.
Proof.
  intros R Hi Hu. destruct (finv_reach _ _ R) as (HW & HS & HE & HA).
  destruct Hu as [-> |[-> |[-> |[-> | ->]]]]; try (eexists; econstructor; exact Hi; fail).
  pose proof (csum_one fA _ _ _ Hi) as E; cbn in E.
  destruct (f_status f) eqn:Es.
  - specialize (HA eq_refl E). destruct (csum_in_pos _ _ HA) as [j [u [Hj Hk]]].
    destruct u; cbn in Hk; try lia; eexists; econstructor; exact Hj.
  - destruct (csum_in_pos fW (f_st f)) as [j [u [Hj Hk]]]; [lia|].
    destruct u; cbn in Hk; try lia. eexists; apply FI_success; exact Hj.
  - specialize (HE eq_refl); lia.
Qed.

(** Termination: moving from waiting to working to answered pays for everybody's
    next round through the loop. *)
Definition frank (t : fst_) : nat :=
  match t with FLoop | FSawProgress | FAsleep | FWoken => 2 | FWorking => 1 | _ => 0 end.
Definition flocal (s : fstatus) (t : fst_) : nat :=
  match s, t with
  | FProgress, FLoop => 2 | FProgress, FSawProgress => 1 | FProgress, FWoken => 3
  | _, FLoop => 1 | _, FSawProgress => 2 | _, FWoken => 2
  | _, _ => 0
  end.
Definition fpot (f : funnel) : nat :=
  ((3 * length (f_st f) + 4) * csum frank (f_st f) + csum (flocal (f_status f)) (f_st f))%nat.
Lemma flocal_bound s l : (csum (flocal s) l <= 3 * length l)%nat.
Proof.
  rewrite <- csum_const. apply csum_le. intros t; destruct s, t; cbn; lia.
Qed.
Lemma f_notify_length a b : f_notify_one a b -> length b = length a.
Proof. intros [ths i H|ths H]; [apply set_nth_length|reflexivity]. Qed.
Lemma f_notify_rank a b : f_notify_one a b -> csum frank b = csum frank a.
Proof.
  intros [ths i H|ths H]; [|reflexivity]. pose proof (csum_set frank _ _ _ FWoken H) as E.
  cbn in E; lia.
Qed.
Lemma f_wake_rank l : csum frank (map f_wake l) = csum frank l.
Proof. rewrite csum_map. apply csum_ext. intros []; reflexivity. Qed.
Lemma pay m n r r' l l' : n = m -> (S r' <= r)%nat -> (l' <= 3 * n)%nat ->
  ((3 * n + 4) * r' + l' < (3 * m + 4) * r + l)%nat.
Proof. intros -> H1 H2. nia. Qed.
Lemma fint_pot n f f' : freach n f -> fint f f' -> (fpot f' < fpot f)%nat.
Proof.
  intros R S. pose proof (finv_reach _ _ R) as (HW & HS & HE & HA).
  destruct S as [f i H|f i H|f i H|f i H|f i ths H Hn].
  - unfold funnel_getStatus. destruct (f_status f) eqn:Es; unfold fpot; cbn -[Nat.mul].
    + apply pay; [apply set_nth_length| |apply flocal_bound].
      pose proof (csum_set frank _ _ _ FWorking H) as E; cbn in E; lia.
    + rewrite set_nth_length. rewrite Es. pose proof (csum_set frank _ _ _ FSawProgress H) as E.
      pose proof (csum_set (flocal FProgress) _ _ _ FSawProgress H) as E2; cbn in E, E2. nia.
    + apply pay; [apply set_nth_length| |apply flocal_bound].
      pose proof (csum_set frank _ _ _ FSawEnd H) as E; cbn in E; lia.
  - unfold funnel_wait, fpot; cbn -[Nat.mul]. rewrite set_nth_length.
    destruct (f_status f) eqn:Es.
    + pose proof (csum_set frank _ _ _ FLoop H) as E.
      pose proof (csum_set (flocal FStart) _ _ _ FLoop H) as E2; cbn in E, E2. nia.
    + pose proof (csum_set frank _ _ _ FAsleep H) as E.
      pose proof (csum_set (flocal FProgress) _ _ _ FAsleep H) as E2; cbn in E, E2. nia.
    + pose proof (csum_set frank _ _ _ FLoop H) as E.
      pose proof (csum_set (flocal FEnd) _ _ _ FLoop H) as E2; cbn in E, E2. nia.
  - unfold fpot; cbn -[Nat.mul]. rewrite set_nth_length.
    pose proof (csum_set frank _ _ _ FLoop H) as E.
    pose proof (csum_set (flocal (f_status f)) _ _ _ FLoop H) as E2; cbn in E, E2.
    destruct (f_status f); cbn in E2; nia.
  - unfold fpot, funnel_success; cbn -[Nat.mul].
    assert (H' : nth_error (map f_wake (f_st f)) i = Some FWorking)
      by (rewrite nth_error_map, H; reflexivity).
    apply pay; [rewrite set_nth_length; apply map_length| |apply flocal_bound].
    pose proof (csum_set frank _ _ _ FSucceeded H') as E. rewrite f_wake_rank in E. cbn in E; lia.
  - unfold fpot, funnel_fail; cbn -[Nat.mul].
    destruct (f_notify_facts _ _ Hn) as (_ & _ & _ & N4).
    assert (H' : nth_error ths i = Some FWorking) by (apply N4; [exact H|discriminate]).
    apply pay; [rewrite set_nth_length; apply f_notify_length; exact Hn| |apply flocal_bound].
    pose proof (csum_set frank _ _ _ FGaveUp H') as E. rewrite (f_notify_rank _ _ Hn) in E.
    cbn in E; lia.
Qed.
Lemma funnel_runs_end n f : freach n f ->
  exists bound, forall k f', frun k f f' -> (k <= bound)%nat.
Proof.
  intros R. exists (fpot f). intros k f' Hr. revert R.
  induction Hr as [f|k f1 f2 f3 S Hr IH]; intros R; [lia|].
  pose proof (fint_pot _ _ _ R S). assert (R' : freach n f2) by (eapply FRS; [exact R|left; exact S]).
  specialize (IH R'). lia.
Qed.

(** ---- ExecuteOnceFunc ---- *)
Definition oO (t : est) : nat := match t with EOut => 1 | _ => 0 end.
Definition oA (t : est) : nat := match t with EActing => 1 | _ => 0 end.
Definition oR (t : est) : nat := match t with EReturned => 1 | _ => 0 end.
Definition oinv (n : nat) (first : bool) (e : once) : Prop :=
  e_first e = first /\ e_threads e = Z.of_nat n /\ length (e_st e) = n /\
  (csum oO (e_st e) + csum oA (e_st e) + csum oR (e_st e) = n)%nat /\
  e_hits e = Z.of_nat (csum oA (e_st e) + csum oR (e_st e)) /\
  (csum oA (e_st e) + e_ran e =
    if first then if (csum oO (e_st e) =? n)%nat then 0 else 1
    else if (csum oO (e_st e) =? 0)%nat then (if (n =? 0)%nat then 0 else 1) else 0)%nat /\
  (first = true -> (0 < csum oA (e_st e))%nat -> csum oR (e_st e) = 0%nat).
Lemma oinv_init n first : oinv n first (once_init n first).
Proof.
  unfold oinv, once_init; cbn. rewrite !csum_repeat, repeat_length; cbn.
  repeat split; try lia. destruct first.
  - rewrite Nat.mul_1_r, Nat.eqb_refl. lia.
  - rewrite Nat.mul_1_r. destruct (n =? 0)%nat; lia.
Qed.
Ltac oset H x := 
  let E1 := fresh "E" in let E2 := fresh "E" in let E3 := fresh "E" in
  pose proof (csum_set oO _ _ _ x H) as E1; pose proof (csum_set oA _ _ _ x H) as E2;
  pose proof (csum_set oR _ _ _ x H) as E3; cbn [oO oA oR] in E1, E2, E3.
Lemma oinv_step n first e r : oinv n first e -> ostep e r -> exists e', r = Some e' /\ oinv n first e'.
Proof.
  intros (HF & HT & HL & HN & HH & HR & HX) S.
  destruct S as [e i H Hno Hle|e i H Hno Hlt|e i H].
  - eexists; split; [reflexivity|].
    assert (HA : csum oA (e_st e) = 0%nat).
    { destruct (csum oA (e_st e)) eqn:E; [reflexivity|]. exfalso.
      destruct (csum_in_pos oA (e_st e)) as [j [t [Hj Ht]]]; [lia|].
      destruct t; cbn in Ht; try lia. apply Hno. eapply nth_error_In; exact Hj. }
    pose proof (csum_one oO _ _ _ H) as HO; cbn in HO.
    unfold oinv; cbn [e_first e_threads e_st e_hits e_ran].
    rewrite set_nth_length. rewrite HF.
    destruct first.
    + destruct (Z.eqb_spec (e_hits e + 1) 1) as [E1|E1]; oset H EActing; oset H EReturned;
        repeat split; auto; try lia.
      * destruct (Nat.eqb_spec (csum oO (e_st e)) n); [|lia].
        destruct (Nat.eqb_spec (csum oO (set_nth (e_st e) i EActing)) n); lia.
      * destruct (Nat.eqb_spec (csum oO (e_st e)) n); [lia|].
        destruct (Nat.eqb_spec (csum oO (set_nth (e_st e) i EReturned)) n); lia.
    + destruct (Z.eqb_spec (e_hits e + 1) (e_threads e)) as [E1|E1]; oset H EActing; oset H EReturned;
        repeat split; auto; try lia; try discriminate.
      * destruct (Nat.eqb_spec (csum oO (e_st e)) 0); [lia|].
        destruct (Nat.eqb_spec (csum oO (set_nth (e_st e) i EActing)) 0); [|lia].
        destruct (Nat.eqb_spec n 0); lia.
      * destruct (Nat.eqb_spec (csum oO (e_st e)) 0); [lia|].
        destruct (Nat.eqb_spec (csum oO (set_nth (e_st e) i EReturned)) 0); lia.
  - exfalso. pose proof (csum_one oO _ _ _ H) as HO; cbn in HO. lia.
  - eexists; split; [reflexivity|]. pose proof (csum_one oA _ _ _ H) as HO; cbn in HO.
    unfold oinv; cbn [e_first e_threads e_st e_hits e_ran]. rewrite set_nth_length.
    oset H EReturned.
    assert (EO : csum oO (set_nth (e_st e) i EReturned) = csum oO (e_st e)) by lia.
    rewrite EO. repeat split; auto; try lia.
    intros -> Hp. exfalso.
    destruct (Nat.eqb_spec (csum oO (e_st e)) n); lia.
Qed.
Lemma oinv_reach n first e : oreach n first e -> oinv n first e.
Proof.
  induction 1 as [|e e' _ IH S]; [apply oinv_init|].
  destruct (oinv_step _ _ _ _ IH S) as [e'' [E H]]. injection E as <-; exact H.
Qed.
Lemma once_no_crash n first e : oreach n first e -> ~ ostep e None.
Proof.
  intros R S. destruct (oinv_step _ _ _ _ (oinv_reach _ _ _ R) S) as [e' [E _]]. discriminate.
Qed.
Lemma zero_none {A} (f : A -> nat) l i t : csum f l = 0%nat -> nth_error l i = Some t -> f t = 0%nat.
Proof. intros E H. pose proof (csum_one f _ _ _ H). lia. Qed.
Lemma start_action n e i : oreach n true e -> nth_error (e_st e) i = Some EReturned -> e_ran e = 1%nat.
Proof.
  intros R H. destruct (oinv_reach _ _ _ R) as (HF & HT & HL & HN & HH & HR & HX).
  pose proof (csum_one oR _ _ _ H) as E; cbn in E.
  destruct (Nat.eqb_spec (csum oO (e_st e)) n); [lia|].
  destruct (csum oA (e_st e)) eqn:EA; [lia|]. specialize (HX eq_refl ltac:(lia)). lia.
Qed.
Lemma ran_bound n first e : oreach n first e -> (e_ran e <= 1)%nat.
Proof.
  intros R. destruct (oinv_reach _ _ _ R) as (HF & HT & HL & HN & HH & HR & HX).
  destruct first; [destruct (csum oO (e_st e) =? n)%nat|
    destruct (csum oO (e_st e) =? 0)%nat; [destruct (n =? 0)%nat|]]; lia.
Qed.
Lemma end_action n e i t : oreach n false e -> nth_error (e_st e) i = Some EOut ->
  e_ran e = 0%nat /\ (In t (e_st e) -> t <> EActing).
Proof.
  intros R H. destruct (oinv_reach _ _ _ R) as (HF & HT & HL & HN & HH & HR & HX).
  pose proof (csum_one oO _ _ _ H) as E; cbn in E.
  destruct (Nat.eqb_spec (csum oO (e_st e)) 0); [lia|].
  split; [lia|]. intros Hin ->. pose proof (csum_pos_in oA _ _ Hin) as P; cbn in P. lia.
Qed.
Lemma all_returned n first e : oreach n first e -> n <> 0%nat ->
  (forall i t, nth_error (e_st e) i = Some t -> t = EReturned) -> e_ran e = 1%nat.
Proof.
  intros R Hn Hall. destruct (oinv_reach _ _ _ R) as (HF & HT & HL & HN & HH & HR & HX).
  assert (HO : csum oO (e_st e) = 0%nat).
  { destruct (csum oO (e_st e)) eqn:E; [reflexivity|]. destruct (csum_in_pos oO (e_st e)) as [j [t [Hj Ht]]]; [lia|].
    rewrite (Hall _ _ Hj) in Ht; cbn in Ht; lia. }
  assert (HA : csum oA (e_st e) = 0%nat).
  { destruct (csum oA (e_st e)) eqn:E; [reflexivity|]. destruct (csum_in_pos oA (e_st e)) as [j [t [Hj Ht]]]; [lia|].
    rewrite (Hall _ _ Hj) in Ht; cbn in Ht; lia. }
  rewrite HO, HA in HR. rewrite Nat.eqb_refl in HR.
  destruct first.
  - destruct (Nat.eqb_spec 0 n); lia.
  - destruct (Nat.eqb_spec n 0); lia.
Qed.
Lemma once_progress n first e i t : oreach n first e -> nth_error (e_st e) i = Some t -> t <> EReturned ->
  exists e', ostep e (Some e').
Proof.
  intros R H Ht. destruct (oinv_reach _ _ _ R) as (HF & HT & HL & HN & HH & HR & HX).
  destruct (csum oA (e_st e)) eqn:EA.
  - destruct t; [|pose proof (csum_one oA _ _ _ H) as E; cbn in E; lia|congruence].
    eexists; apply OS_call; [exact H| |].
    + intros Hin. pose proof (csum_pos_in oA _ _ Hin) as P; cbn in P. lia.
    + pose proof (csum_one oO _ _ _ H) as E; cbn in E. lia.
  - destruct (csum_in_pos oA (e_st e)) as [j [u [Hj Hu]]]; [lia|].
    destruct u; cbn in Hu; try lia. eexists; apply OS_done; exact Hj.
Qed.
Lemma reset_fresh n first e : oreach n first e -> once_reset e = once_init n first.
Proof.
  intros R. destruct (oinv_reach _ _ _ R) as (HF & HT & HL & _).
  unfold once_reset, once_init. rewrite HF, HT, HL; reflexivity.
Qed.
Lemma end_never n dead e : oreach_without n dead false e -> (dead < n)%nat -> e_ran e = 0%nat.
Proof.
  intros R Hd.
  assert (H : oreach n false e /\ nth_error (e_st e) dead = Some EOut).
  { induction R as [|e e' R IH S Hd'].
    - split; [constructor|]. cbn. apply nth_error_repeat; exact Hd.
    - split; [eapply ORS; [exact (proj1 IH)|exact S]|exact Hd']. }
  exact (proj1 (end_action n e dead EOut (proj1 H) (proj2 H))).
Qed.
