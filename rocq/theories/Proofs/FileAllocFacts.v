From Verif Require Import Model.FileAlloc Spec.FileAllocSpec Proofs.QueueMonitorFacts Proofs.CountFacts.

Definition owner (f : falloc) (s t : Z) : Prop :=
  exists j, t = Z.of_nat j /\ (allocating f j s \/ announcing f j s).
Definition tok (f : falloc) (i : nat) (t : cst) : Prop :=
  match t with
  | CIdle => True
  | CAlloc s => fa_map f s = Some (Z.of_nat i)
  | CSet s ok => fa_map f s = Some (if ok then ALLOCATED else FAILED)
  | CSaw s _ | CWoken s _ => fa_map f s <> None
  | CHolding s _ => fa_map f s <> None /\ fa_mutex f = Some i
  | CWillSleep s t => owner f s t /\ fa_mutex f = Some i
  | CAsleep s t => owner f s t
  | CMayOpen s | CDone s true => fa_map f s = Some ALLOCATED
  | CDone s false => fa_map f s = Some ALLOCATED \/ fa_map f s = Some FAILED
  end.
(** [CSaw] and the states after it remember the thread that was allocating. *)
Definition tok2 (f : falloc) (t : cst) : Prop :=
  match t with
  | CSaw s t | CWoken s t | CHolding s t =>
      fa_map f s = Some ALLOCATED \/ fa_map f s = Some FAILED \/ fa_map f s = Some t
  | _ => True
  end.
Definition ainv (f : falloc) : Prop :=
  (forall i t, nth_error (fa_st f) i = Some t -> tok f i t /\ tok2 f t) /\
  (forall s z, fa_map f s = Some z -> z = ALLOCATED \/ z = FAILED \/
     exists j, z = Z.of_nat j /\ allocating f j s) /\
  (forall s, fa_allocs f s = match fa_map f s with None => 0 | Some _ => if fa_presized f s then 0 else 1 end%nat) /\
  (forall s, fa_presized f s = true -> fa_map f s = Some ALLOCATED) /\
  (forall i, fa_mutex f = Some i -> exists s t,
     nth_error (fa_st f) i = Some (CHolding s t) \/ nth_error (fa_st f) i = Some (CWillSleep s t)).

Lemma mset_same {A} (m : Z -> A) k v : mset m k v k = v.
Proof. unfold mset; rewrite Z.eqb_refl; reflexivity. Qed.
Lemma mset_other {A} (m : Z -> A) k v x : x <> k -> mset m k v x = m x.
Proof. unfold mset; intros H. destruct (Z.eqb_spec x k); [contradiction|reflexivity]. Qed.

Definition neutral (t : cst) : Prop := (forall s, t <> CAlloc s) /\ (forall s ok, t <> CSet s ok).
Definition holder (t : cst) : Prop :=
  exists s u, t = CHolding s u \/ t = CWillSleep s u.

Lemma owner_keep f g i x : nth_error (fa_st f) i = Some x -> neutral x ->
  (forall j, j <> i -> nth_error (fa_st g) j = nth_error (fa_st f) j) ->
  forall s t, owner f s t -> owner g s t.
Proof.
  intros Hi [N1 N2] Hg s t [j [E H]]. exists j; split; [exact E|].
  destruct (Nat.eq_dec j i) as [-> |Hn].
  - exfalso. destruct H as [H|[ok H]]; unfold allocating in *; rewrite Hi in H; injection H as ->.
    + exact (N1 s eq_refl).
    + exact (N2 s ok eq_refl).
  - unfold allocating, announcing in *. rewrite (Hg j Hn). exact H.
Qed.
Lemma alloc_keep f g i x : nth_error (fa_st f) i = Some x -> neutral x ->
  (forall j, j <> i -> nth_error (fa_st g) j = nth_error (fa_st f) j) ->
  forall s j, allocating f j s -> allocating g j s.
Proof.
  intros Hi [N1 N2] Hg s j H. unfold allocating in *. destruct (Nat.eq_dec j i) as [-> |Hn].
  - exfalso. rewrite Hi in H; injection H as ->. exact (N1 s eq_refl).
  - rewrite (Hg j Hn). exact H.
Qed.
Lemma lock_other f i m y j : j <> i -> nth_error (fa_st (fa_lock f i m y)) j = nth_error (fa_st f) j.
Proof. intros Hn; cbn. apply nth_set_other; congruence. Qed.

(** Only thread [i] moves, and the map stays. *)
Lemma keep_lock f i m x y : ainv f -> nth_error (fa_st f) i = Some x -> neutral x ->
  tok (fa_lock f i m y) i y -> tok2 f y ->
  (m = fa_mutex f \/ fa_mutex f = None \/ fa_mutex f = Some i) ->
  (m = Some i -> holder y) -> (forall j, m = Some j -> j <> i -> fa_mutex f = Some j) ->
  ainv (fa_lock f i m y).
Proof.
  intros (T & M & A & P & X) Hi Nx Ty T2y Hm Hy Hj.
  assert (OK := owner_keep f (fa_lock f i m y) i x Hi Nx (lock_other f i m y)).
  assert (AK := alloc_keep f (fa_lock f i m y) i x Hi Nx (lock_other f i m y)).
  split; [|split; [|split; [|split]]].
  - intros j t H. cbn in H. destruct (nth_set_cases _ _ _ _ _ H) as [[E1 E2]|[E1 E2]].
    + subst j t. split; [exact Ty|exact T2y].
    + destruct (T j t E2) as [Tj T2j]. split; [|exact T2j].
      destruct t; cbn in *; auto.
      * destruct Tj as [T1 T3]. split; [exact T1|].
        destruct Hm as [-> |[Hm|Hm]]; [exact T3|congruence|congruence].
      * destruct Tj as [T1 T3]. split; [apply OK; exact T1|].
        destruct Hm as [-> |[Hm|Hm]]; [exact T3|congruence|congruence].
  - intros s z H. cbn in H. destruct (M s z H) as [E|[E|[j [E1 E2]]]]; auto.
    right; right. exists j; split; [exact E1|apply AK; exact E2].
  - exact A.
  - exact P.
  - intros j H. cbn in H. destruct (Nat.eq_dec j i) as [-> |Hn].
    + destruct (Hy H) as [s [u Hu]]. exists s, u. cbn.
      rewrite (nth_set_same _ _ _ _ Hi). destruct Hu as [-> | ->]; auto.
    + destruct (X j (Hj j H Hn)) as [s [u Hu]]. exists s, u. rewrite lock_other by exact Hn. exact Hu.
Qed.
Lemma go_lock f i y : fa_go f i y = fa_lock f i (fa_mutex f) y.
Proof. reflexivity. Qed.
Lemma not_holder_mutex f i x : ainv f -> nth_error (fa_st f) i = Some x -> ~ holder x ->
  fa_mutex f <> Some i.
Proof.
  intros (_ & _ & _ & _ & X) Hi Hn E. destruct (X i E) as [s [u Hu]]. apply Hn. exists s, u.
  rewrite Hi in Hu. destruct Hu as [Hu|Hu]; injection Hu as ->; auto.
Qed.
Lemma keep_go f i x y : ainv f -> nth_error (fa_st f) i = Some x -> neutral x -> ~ holder x ->
  tok (fa_go f i y) i y -> tok2 f y -> ainv (fa_go f i y).
Proof.
  intros I Hi Nx Hx Ty T2. rewrite go_lock. eapply keep_lock; eauto.
  intros E. exfalso. exact (not_holder_mutex f i x I Hi Hx E).
Qed.
Lemma neutral_not t : (forall s, t <> CAlloc s) -> (forall s ok, t <> CSet s ok) -> neutral t.
Proof. split; assumption. Qed.
Ltac neu := split; intros; discriminate.
Ltac nhold := let s := fresh in let u := fresh in let H := fresh in intros [s [u [H|H]]]; discriminate.

Lemma nat_not_status j : Z.of_nat j <> ALLOCATED /\ Z.of_nat j <> FAILED.
Proof. unfold ALLOCATED, FAILED; lia. Qed.

Lemma keep_open f i s ex : ainv f -> nth_error (fa_st f) i = Some CIdle -> ainv (fa_open f i s ex).
Proof.
  intros I Hi. pose proof I as (T & M & A & P & X). unfold fa_open.
  assert (Ni : neutral CIdle) by neu.
  destruct (fa_map f s) as [st|] eqn:Em.
  - destruct (Z.eqb_spec st FAILED) as [E|E]; [|destruct (Z.eqb_spec st ALLOCATED) as [E'|E']].
    + eapply keep_go; eauto; [nhold| |exact Logic.I]. cbn. right; congruence.
    + eapply keep_go; eauto; [nhold| |exact Logic.I]. cbn. congruence.
    + eapply keep_go; eauto; [nhold| |]; cbn; [congruence|].
      right; right; exact Em.
  - set (g := if ex then _ else _).
    assert (Gm : exists z y, fa_map g = mset (fa_map f) s (Some z) /\ fa_mutex g = fa_mutex f /\
        fa_st g = set_nth (fa_st f) i y /\
        ((z = ALLOCATED /\ y = CMayOpen s /\ fa_allocs g = fa_allocs f /\ fa_presized g = mset (fa_presized f) s true) \/
         (z = Z.of_nat i /\ y = CAlloc s /\ fa_allocs g = mset (fa_allocs f) s (S (fa_allocs f s)) /\ fa_presized g = fa_presized f))).
    { unfold g; destruct ex; cbn; do 2 eexists; repeat split; [left|right]; repeat split. }
    clearbody g. destruct Gm as [z [y [Gm [Gx [Gs Gy]]]]].
    assert (Go : forall j, j <> i -> nth_error (fa_st g) j = nth_error (fa_st f) j)
      by (intros j Hn; rewrite Gs; apply nth_set_other; congruence).
    assert (OK := owner_keep f g i CIdle Hi Ni Go). assert (AK := alloc_keep f g i CIdle Hi Ni Go).
    assert (GMO : forall s' v, fa_map f s' = Some v -> fa_map g s' = Some v).
    { intros s' v H. rewrite Gm. rewrite mset_other; [exact H|]. congruence. }
    assert (GMS : fa_map g s = Some z) by (rewrite Gm; apply mset_same).
    assert (GN : forall s', fa_map f s' <> None -> fa_map g s' <> None).
    { intros s' H. destruct (fa_map f s') as [v|] eqn:E; [|congruence]. rewrite (GMO _ _ E); discriminate. }
    split; [|split; [|split; [|split]]].
    + intros j t H. rewrite Gs in H. destruct (nth_set_cases _ _ _ _ _ H) as [[E1 E2]|[E1 E2]].
      * subst j t. destruct Gy as [(-> & -> & _)|(-> & -> & _)]; cbn; split; auto.
      * destruct (T j t E2) as [Tj T2j]. split.
        -- destruct t; cbn in *; auto.
           ++ destruct Tj; split; [auto|congruence].
           ++ destruct Tj; split; [auto|congruence].
           ++ destruct fd_ok; [auto|destruct Tj; auto].
        -- destruct t; cbn in *; auto; destruct T2j as [H1|[H1|H1]]; auto.
    + intros s' z' H. rewrite Gm in H. destruct (Z.eq_dec s' s) as [-> |Hs].
      * rewrite mset_same in H; injection H as <-.
        destruct Gy as [(Ez & _)|(Ez & Ey & _)]; [left; exact Ez|].
        right; right. exists i; split; [exact Ez|]. unfold allocating. rewrite Gs, Ey.
        apply (nth_set_same _ _ _ _ Hi).
      * rewrite mset_other in H by exact Hs. destruct (M _ _ H) as [E|[E|[j [E1 E2]]]]; auto.
        right; right; exists j; split; [exact E1|apply AK; exact E2].
    + intros s'. destruct (Z.eq_dec s' s) as [-> |Hs].
      * rewrite GMS. pose proof (A s) as As. rewrite Em in As.
        destruct Gy as [(_ & _ & -> & ->)|(_ & _ & -> & ->)].
        -- rewrite mset_same. exact As.
        -- rewrite mset_same, As. destruct (fa_presized f s) eqn:Ep; [|reflexivity].
           rewrite (P _ Ep) in Em; discriminate.
      * pose proof (A s') as As. rewrite Gm, mset_other by exact Hs.
        destruct Gy as [(_ & _ & -> & ->)|(_ & _ & -> & ->)]; rewrite ?mset_other by exact Hs; exact As.
    + intros s' H. destruct (Z.eq_dec s' s) as [-> |Hs].
      * destruct Gy as [(-> & _)|(_ & _ & _ & Ep)]; [exact GMS|].
        rewrite Ep in H. rewrite (P _ H) in Em; discriminate.
      * apply GMO. apply P. destruct Gy as [(_ & _ & _ & Ep)|(_ & _ & _ & Ep)]; rewrite Ep in H;
          rewrite ?mset_other in H by exact Hs; exact H.
    + intros j H. rewrite Gx in H. destruct (X j H) as [s' [u Hu]]. exists s', u.
      rewrite Go; [exact Hu|]. intros ->. destruct Hu; congruence.
Qed.
Lemma status_of ok : Some (if ok : bool then ALLOCATED else FAILED) = Some ALLOCATED \/
  Some (if ok then ALLOCATED else FAILED) = Some FAILED.
Proof. destruct ok; auto. Qed.
Lemma status_neq ok j : (if ok : bool then ALLOCATED else FAILED) <> Z.of_nat j.
Proof. destruct ok; unfold ALLOCATED, FAILED; lia. Qed.
Lemma keep_finish f i s ok : ainv f -> nth_error (fa_st f) i = Some (CAlloc s) ->
  ainv (fa_finish f i s ok).
Proof.
  intros I Hi. pose proof I as (T & M & A & P & X). set (g := fa_finish f i s ok).
  assert (Em : fa_map f s = Some (Z.of_nat i)) by (exact (proj1 (T i _ Hi))).
  assert (GMS : fa_map g s = Some (if ok then ALLOCATED else FAILED)) by (apply mset_same).
  assert (GMO : forall s', s' <> s -> fa_map g s' = fa_map f s') by (intros; apply mset_other; assumption).
  assert (Gi : nth_error (fa_st g) i = Some (CSet s ok)) by (apply (nth_set_same _ _ _ _ Hi)).
  assert (Go : forall j, j <> i -> nth_error (fa_st g) j = nth_error (fa_st f) j)
    by (intros j Hn; apply nth_set_other; congruence).
  assert (OK : forall s' t, owner f s' t -> owner g s' t).
  { intros s' t [j [E H]]. exists j; split; [exact E|]. destruct (Nat.eq_dec j i) as [-> |Hn].
    - right. exists ok. destruct H as [H|[o H]]; unfold allocating in H; rewrite Hi in H; [|discriminate].
      injection H as <-. exact Gi.
    - unfold allocating, announcing; rewrite (Go j Hn); exact H. }
  assert (GN : forall s', fa_map f s' <> None -> fa_map g s' <> None).
  { intros s' H. destruct (Z.eq_dec s' s) as [-> |Hs]; [rewrite GMS; discriminate|rewrite GMO; assumption]. }
  assert (Now : forall z, fa_map f s = Some z -> z = Z.of_nat i) by (intros z; rewrite Em; congruence).
  split; [|split; [|split; [|split]]].
  - intros j t H. destruct (Nat.eq_dec j i) as [-> |Hn].
    { rewrite Gi in H; injection H as <-. cbn; split; [exact GMS|exact Logic.I]. }
    rewrite (Go j Hn) in H. destruct (T j t H) as [Tj T2j].
    assert (G : forall s' z, fa_map f s' = Some z -> z <> Z.of_nat i -> fa_map g s' = Some z).
    { intros s' z E Hz. rewrite GMO; [exact E|]. intros ->. exact (Hz (Now z E)). }
    destruct (nat_not_status i) as [S1 S2].
    split.
    + destruct t; cbn in *; auto.
      * apply G; [exact Tj|]. intros E; apply Hn; lia.
      * apply G; [exact Tj|]. apply status_neq.
      * destruct Tj as [T1 T3]; split; [exact (GN _ T1)|exact T3].
      * destruct Tj as [T1 T3]; split; [exact (OK _ _ T1)|exact T3].
      * destruct fd_ok; [auto|]. destruct Tj; auto.
    + assert (G2 : forall s' u, fa_map f s' = Some ALLOCATED \/ fa_map f s' = Some FAILED \/ fa_map f s' = Some u ->
        fa_map g s' = Some ALLOCATED \/ fa_map g s' = Some FAILED \/ fa_map g s' = Some u).
      { intros s' u H'. destruct (Z.eq_dec s' s) as [-> |Hs].
        - rewrite GMS. destruct (status_of ok); auto.
        - rewrite GMO by exact Hs. exact H'. }
      destruct t; cbn in *; auto.
  - intros s' z H. destruct (Z.eq_dec s' s) as [-> |Hs].
    + rewrite GMS in H; injection H as <-. destruct ok; auto.
    + rewrite GMO in H by exact Hs. destruct (M _ _ H) as [E|[E|[j [E1 E2]]]]; auto.
      right; right; exists j; split; [exact E1|]. unfold allocating in *. rewrite Go; [exact E2|].
      intros ->. congruence.
  - intros s'. destruct (Z.eq_dec s' s) as [-> |Hs].
    + rewrite GMS. pose proof (A s) as As; rewrite Em in As. exact As.
    + rewrite GMO by exact Hs. exact (A s').
  - intros s' H. destruct (Z.eq_dec s' s) as [-> |Hs].
    + pose proof (P s H) as E. rewrite Em in E. injection E as E. destruct (nat_not_status i); contradiction.
    + rewrite GMO by exact Hs. exact (P s' H).
  - intros j H. destruct (X j H) as [s' [u Hu]]. exists s', u. rewrite Go; [exact Hu|].
    intros ->. destruct Hu; congruence.
Qed.
Lemma keep_notify f i s ok : ainv f -> nth_error (fa_st f) i = Some (CSet s ok) -> fa_mutex f = None ->
  ainv (fa_notify f i s ok).
Proof.
  intros I Hi Hm. pose proof I as (T & M & A & P & X). set (g := fa_notify f i s ok).
  assert (Em : fa_map f s = Some (if ok then ALLOCATED else FAILED)) by (exact (proj1 (T i _ Hi))).
  assert (Gi : nth_error (fa_st g) i = Some (CDone s ok)).
  { apply (nth_set_same _ _ (CSet s ok)). rewrite nth_error_map, Hi; reflexivity. }
  assert (Go : forall j, j <> i -> nth_error (fa_st g) j = option_map (c_wake i) (nth_error (fa_st f) j)).
  { intros j Hn. cbn. rewrite nth_set_other by congruence. apply nth_error_map. }
  assert (OK : forall s' t, t <> Z.of_nat i -> owner f s' t -> owner g s' t).
  { intros s' t Ht [j [E H]]. exists j; split; [exact E|]. assert (Hn : j <> i) by (intros ->; congruence).
    unfold allocating, announcing. rewrite (Go j Hn). destruct H as [H|[o H]]; unfold allocating in H; rewrite H; cbn; eauto. }
  split; [|split; [|split; [|split]]].
  - intros j t H. destruct (Nat.eq_dec j i) as [-> |Hn].
    { rewrite Gi in H; injection H as <-. split; [|exact Logic.I]. cbn. destruct ok; [exact Em|right; exact Em]. }
    rewrite (Go j Hn) in H. destruct (nth_error (fa_st f) j) as [t0|] eqn:E0; [|discriminate].
    cbn in H; injection H as <-. destruct (T j t0 E0) as [Tj T2j].
    destruct t0; cbn in Tj, T2j |- *; auto.
    + destruct Tj as [_ E]. congruence.
    + destruct (Z.eqb_spec t (Z.of_nat i)) as [Et|Et].
      * subst t. cbn. destruct Tj as [k [Ek Hk]]. assert (k = i) as -> by lia.
        destruct Hk as [Hk|[o Hk]]; unfold allocating in Hk; rewrite Hi in Hk; [discriminate|].
        injection Hk as <- <-. rewrite Em. destruct ok; split; auto; discriminate.
      * cbn. split; [apply OK; assumption|exact Logic.I].
  - intros s' z H. destruct (M s' z H) as [E|[E|[j [E1 E2]]]]; auto.
    right; right; exists j; split; [exact E1|]. unfold allocating in *.
    assert (Hn : j <> i) by (intros ->; congruence). rewrite (Go j Hn), E2; reflexivity.
  - exact A.
  - exact P.
  - intros j H. exfalso. cbn in H. congruence.
Qed.
Lemma check_none f i s t : ainv f -> nth_error (fa_st f) i = Some (CHolding s t) -> fa_map f s <> None.
Proof. intros (T & _) H. exact (proj1 (proj1 (T i _ H))). Qed.
Lemma keep_check f i s t f' : ainv f -> nth_error (fa_st f) i = Some (CHolding s t) ->
  fa_check f i s t = Ret f' -> ainv f'.
Proof.
  intros I Hi. pose proof I as (T & M & A & P & X). unfold fa_check.
  destruct (T i _ Hi) as [[T1 T3] T2]. cbn in T2.
  destruct (fa_map f s) as [st|] eqn:Em; [|discriminate]. intros E; injection E as <-.
  assert (Ni : neutral (CHolding s t)) by neu.
  destruct (Z.eqb_spec st ALLOCATED) as [E|E]; [|destruct (Z.eqb_spec st FAILED) as [E'|E']].
  - eapply keep_lock; eauto; cbn; try congruence; auto.
  - eapply keep_lock; eauto; cbn; try congruence; auto. right; congruence.
  - eapply keep_lock; eauto; cbn; try congruence; auto.
    + split; [|exact T3]. destruct (M _ _ Em) as [E2|[E2|[j [E1 E2]]]]; [congruence|congruence|].
      exists j; split.
      * destruct T2 as [H|[H|H]]; congruence.
      * left. eapply alloc_keep; [exact Hi|exact Ni| |exact E2]. apply lock_other.
    + intros _. exists s, t; auto.
Qed.
Lemma ainv_int f r : ainv f -> aint f r -> exists f', r = Some f' /\ ainv f'.
Proof.
  intros I S. destruct S as [f i s ok H Hm|f i s H Hm|f i s ok H Hm|f i s t H Hm|f i s t f' H E
    |f i s t H E|f i s t H|f i s ok H].
  - eexists; split; [reflexivity|]. apply keep_finish; assumption.
  - exfalso. destruct I as (T & _). pose proof (proj1 (T i _ H)) as E; cbn in E. congruence.
  - eexists; split; [reflexivity|]. apply keep_notify; assumption.
  - eexists; split; [reflexivity|]. pose proof I as (T & _).
    assert (HT : fa_map f s <> None /\ tok2 f (CHolding s t)).
    { destruct H as [H|H]; destruct (T i _ H) as [T1 T2]; split; assumption. }
    destruct HT as [HT HT2].
    destruct H as [H|H]; (eapply keep_lock; [exact I|exact H|neu|split; [exact HT|reflexivity]|exact HT2|auto| |]);
      try (intros _; exists s, t; auto); intros j Hj Hn; congruence.
  - eexists; split; [reflexivity|]. eapply keep_check; eassumption.
  - exfalso. pose proof (check_none _ _ _ _ I H) as Hn. unfold fa_check in E.
    destruct (fa_map f s); [discriminate|congruence].
  - eexists; split; [reflexivity|]. pose proof I as (T & _).
    destruct (T i _ H) as [[T1 T3] T2]. assert (Ni : neutral (CWillSleep s t)) by neu.
    eapply keep_lock; eauto; cbn; try congruence; auto.
    eapply owner_keep; [exact H|exact Ni| |exact T1]. apply lock_other.
  - eexists; split; [reflexivity|]. pose proof I as (T & _).
    pose proof (proj1 (T i _ H)) as E; cbn in E.
    eapply keep_go; [exact I|exact H|neu|nhold| |exact Logic.I]. cbn. destruct ok; auto.
Qed.
Lemma ainv_ext f f' : ainv f -> aext f f' -> ainv f'.
Proof.
  intros I S. destruct S as [f i s ex H|f i s ok H|f i s t H].
  - apply keep_open; assumption.
  - eapply keep_go; [exact I|exact H|neu|nhold|exact Logic.I|exact Logic.I].
  - pose proof I as (T & M & _). pose proof (proj1 (T i _ H)) as E; cbn in E.
    destruct E as [j [Ej Hj]].
    assert (Hmap : fa_map f s = Some ALLOCATED \/ fa_map f s = Some FAILED \/ fa_map f s = Some t).
    { destruct Hj as [Hj|[ok Hj]]; pose proof (proj1 (T j _ Hj)) as E; cbn in E; rewrite E.
      - right; right; congruence.
      - destruct ok; auto. }
    eapply keep_go; [exact I|exact H|neu|nhold| |exact Hmap]. cbn.
    destruct Hmap as [Hm|[Hm|Hm]]; rewrite Hm; discriminate.
Qed.
Lemma ainv_init n : ainv (falloc_init n).
Proof.
  unfold ainv, falloc_init; cbn. repeat split; try discriminate.
  - intros. apply nth_error_In, repeat_spec in H. subst t; exact Logic.I.
  - apply nth_error_In, repeat_spec in H. subst t; exact Logic.I.
Qed.
Lemma ainv_reach n f : areach n f -> ainv f.
Proof.
  induction 1 as [|f f' _ IH S|f f' _ IH S|f _ IH]; [apply ainv_init| |eapply ainv_ext; eassumption|apply ainv_init].
  destruct (ainv_int _ _ IH S) as [f'' [E H]]; injection E as <-; exact H.
Qed.
Lemma ainv_steps f f' : ainv f -> asteps f f' -> ainv f'.
Proof.
  intros I S; induction S as [f|f1 f2 f3 S SS IH|f1 f2 f3 S SS IH]; [exact I| |].
  - destruct (ainv_int _ _ I S) as [g [E H]]; injection E as <-; auto.
  - apply IH. eapply ainv_ext; eassumption.
Qed.

(** ---- the claims ---- *)
Lemma no_crash n f : areach n f -> ~ aint f None.
Proof. intros R S. destruct (ainv_int _ _ (ainv_reach _ _ R) S) as [f' [E _]]; discriminate. Qed.
Lemma allocates_once n f s : areach n f ->
  (fa_allocs f s <= 1)%nat /\ (forall i j, allocating f i s -> allocating f j s -> i = j).
Proof.
  intros R. destruct (ainv_reach _ _ R) as (T & M & A & P & X). split.
  - rewrite A. destruct (fa_map f s); [destruct (fa_presized f s)|]; lia.
  - intros i j Hi Hj. pose proof (proj1 (T _ _ Hi)) as E1. pose proof (proj1 (T _ _ Hj)) as E2.
    cbn in E1, E2. rewrite E1 in E2; injection E2 as E2. lia.
Qed.
Lemma opens_after n f i s : areach n f -> opens f i s ->
  (forall j, ~ allocating f j s) /\
  (forall j ok, nth_error (fa_st f) j = Some (CSet s ok) -> ok = true) /\
  (fa_presized f s = false -> fa_allocs f s = 1%nat).
Proof.
  intros R Ho. destruct (ainv_reach _ _ R) as (T & M & A & P & X).
  assert (E : fa_map f s = Some ALLOCATED).
  { destruct Ho as [H|H]; exact (proj1 (T _ _ H)). }
  split; [|split].
  - intros j Hj. pose proof (proj1 (T _ _ Hj)) as E1; cbn in E1. rewrite E in E1; injection E1 as E1.
    destruct (nat_not_status j) as [N _]; congruence.
  - intros j ok Hj. pose proof (proj1 (T _ _ Hj)) as E1; cbn in E1. rewrite E in E1.
    destruct ok; [reflexivity|discriminate].
  - intros Ep. rewrite A, E, Ep. reflexivity.
Qed.
Lemma failed_stays f f' s : ainv f -> fa_map f s = Some FAILED -> asteps f f' -> fa_map f' s = Some FAILED.
Proof.
  intros I E S; revert I E; induction S as [f|f1 f2 f3 S SS IH|f1 f2 f3 S SS IH]; intros I E; [exact E| |].
  - apply IH.
    + destruct (ainv_int _ _ I S) as [g [Eg H]]; injection Eg as <-; exact H.
    + remember (Some f2) as r eqn:Er. pose proof I as (T & _).
      destruct S as [f i s' ok H Hm|f i s' H Hm|f i s' ok H Hm|f i s' t H Hm|f i s' t f' H E'
        |f i s' t H E'|f i s' t H|f i s' ok H]; try discriminate; injection Er as <-; try exact E.
      * cbn. rewrite mset_other; [exact E|]. intros ->.
        pose proof (proj1 (T _ _ H)) as E1; cbn in E1. rewrite E in E1; injection E1 as E1.
        unfold FAILED in E1; lia.
      * unfold fa_check in E'. destruct (fa_map f s'); [|discriminate]. injection E' as <-.
        destruct (z =? ALLOCATED); [exact E|destruct (z =? FAILED); exact E].
  - apply IH; [eapply ainv_ext; eassumption|].
    destruct S as [f i s' ex H|f i s' ok H|f i s' t H]; try exact E.
    unfold fa_open. destruct (fa_map f s') as [st|] eqn:Em.
    + destruct (st =? FAILED); [exact E|destruct (st =? ALLOCATED); exact E].
    + assert (Hs : s <> s') by (intros ->; congruence).
      destruct ex; cbn; rewrite mset_other by exact Hs; exact E.
Qed.
Lemma failure_for_all n f f' i j s : areach n f -> nth_error (fa_st f) j = Some (CSet s false) ->
  asteps f f' -> ~ opens f' i s.
Proof.
  intros R Hj S Ho. pose proof (ainv_reach _ _ R) as I. pose proof I as (T & _).
  pose proof (proj1 (T _ _ Hj)) as E; cbn in E.
  pose proof (failed_stays _ _ _ I E S) as E'. destruct (ainv_steps _ _ I S) as (T' & _).
  destruct Ho as [H|H]; pose proof (proj1 (T' _ _ H)) as E2; cbn in E2; rewrite E2 in E'; discriminate.
Qed.
Lemma sleeper_expected n f i s : areach n f -> sleeps_for f i s ->
  exists j, allocating f j s \/ announcing f j s.
Proof.
  intros R [t H]. destruct (ainv_reach _ _ R) as (T & _). pose proof (proj1 (T _ _ H)) as E.
  destruct E as [j [_ Hj]]. exists j; exact Hj.
Qed.
Lemma mutex_moves n f i : areach n f -> fa_mutex f = Some i -> exists f', aint f (Some f').
Proof.
  intros R E. destruct (ainv_reach _ _ R) as (T & M & A & P & X).
  destruct (X _ E) as [s [u [Hu|Hu]]].
  - pose proof (check_none _ _ _ _ (ainv_reach _ _ R) Hu) as Hn.
    destruct (fa_check f i s u) as [g| |] eqn:Eg.
    + exists g. eapply AI_check; eassumption.
    + unfold fa_check in Eg. destruct (fa_map f s); [discriminate|congruence].
    + unfold fa_check in Eg. destruct (fa_map f s); discriminate.
  - eexists. eapply AI_sleep; exact Hu.
Qed.
Lemma alloc_not_stuck n f i t : areach n f -> nth_error (fa_st f) i = Some t -> inside t ->
  exists f', aint f (Some f').
Proof.
  intros R Hi [N1 N2]. destruct (fa_mutex f) as [k|] eqn:Em; [eapply mutex_moves; eassumption|].
  pose proof (ainv_reach _ _ R) as I. pose proof I as (T & M & A & P & X).
  assert (AL : forall j s, allocating f j s -> exists f', aint f (Some f')).
  { intros j s Hj. eexists. eapply AI_finish with (ok := true); [exact Hj|].
    pose proof (proj1 (T _ _ Hj)) as E; cbn in E; congruence. }
  destruct t as [|s|s ok|s u|s u|s u|s u|s u|s|s ok]; [congruence|eauto| | | | | | | |].
  - eexists; eapply AI_notify; eassumption.
  - eexists; eapply AI_take; [left; exact Hi|exact Em].
  - pose proof (proj2 (proj1 (T _ _ Hi))) as E; cbn in E; congruence.
  - pose proof (proj2 (proj1 (T _ _ Hi))) as E; cbn in E; congruence.
  - destruct (proj1 (T _ _ Hi)) as [j [_ [Hj|[ok Hj]]]]; [eauto|].
    eexists; eapply AI_notify; eassumption.
  - eexists; eapply AI_take; [right; exact Hi|exact Em].
  - eexists; eapply AI_open with (ok := true); exact Hi.
  - exfalso. exact (N2 s ok eq_refl).
Qed.

Definition arank (t : cst) : nat := match t with CAlloc _ | CSet _ _ => 1 | _ => 0 end.
Definition alocal (t : cst) : nat :=
  match t with
  | CAlloc _ => 2 | CSet _ _ => 1 | CSaw _ _ => 4 | CWoken _ _ => 4 | CHolding _ _ => 3
  | CWillSleep _ _ => 2 | CAsleep _ _ => 1 | CMayOpen _ => 1 | _ => 0
  end.
Definition apot (f : falloc) : nat :=
  ((4 * length (fa_st f) + 5) * csum arank (fa_st f) + csum alocal (fa_st f))%nat.
Lemma alocal_bound l : (csum alocal l <= 4 * length l)%nat.
Proof. rewrite <- csum_const. apply csum_le. intros []; cbn; lia. Qed.
Lemma wake_rank i l : csum arank (map (c_wake i) l) = csum arank l.
Proof. rewrite csum_map. apply csum_ext. intros []; try reflexivity. cbn. destruct (_ =? _); reflexivity. Qed.
Lemma wake_bound i l : (csum alocal (map (c_wake i) l) <= 4 * length l)%nat.
Proof. rewrite <- (map_length (c_wake i) l). apply alocal_bound. Qed.
Lemma aint_pot f r f' : aint f r -> r = Some f' -> (apot f' < apot f)%nat.
Proof.
  intros S Er. destruct S as [f i s ok H Hm|f i s H Hm|f i s ok H Hm|f i s t H Hm|f i s t g H E
    |f i s t H E|f i s t H|f i s ok H]; try discriminate; injection Er as <-; unfold apot; cbn -[Nat.mul].
  - rewrite set_nth_length. pose proof (csum_set arank _ _ _ (CSet s ok) H) as E1.
    pose proof (csum_set alocal _ _ _ (CSet s ok) H) as E2. cbn in E1, E2. nia.
  - rewrite set_nth_length, map_length.
    assert (H' : nth_error (map (c_wake i) (fa_st f)) i = Some (CSet s ok)) by (rewrite nth_error_map, H; reflexivity).
    pose proof (csum_set arank _ _ _ (CDone s ok) H') as E1. rewrite wake_rank in E1. cbn in E1.
    pose proof (csum_set alocal _ _ _ (CDone s ok) H') as E2. cbn in E2.
    pose proof (wake_bound i (fa_st f)). nia.
  - rewrite set_nth_length.
    destruct H as [H|H]; pose proof (csum_set arank _ _ _ (CHolding s t) H) as E1;
      pose proof (csum_set alocal _ _ _ (CHolding s t) H) as E2; cbn in E1, E2; nia.
  - unfold fa_check in E. destruct (fa_map f s) as [st|]; [|discriminate]. injection E as <-.
    destruct (st =? ALLOCATED); [|destruct (st =? FAILED)]; cbn -[Nat.mul]; rewrite set_nth_length.
    + pose proof (csum_set arank _ _ _ (CMayOpen s) H) as E1.
      pose proof (csum_set alocal _ _ _ (CMayOpen s) H) as E2; cbn in E1, E2; nia.
    + pose proof (csum_set arank _ _ _ (CDone s false) H) as E1.
      pose proof (csum_set alocal _ _ _ (CDone s false) H) as E2; cbn in E1, E2; nia.
    + pose proof (csum_set arank _ _ _ (CWillSleep s t) H) as E1.
      pose proof (csum_set alocal _ _ _ (CWillSleep s t) H) as E2; cbn in E1, E2; nia.
  - rewrite set_nth_length. pose proof (csum_set arank _ _ _ (CAsleep s t) H) as E1.
    pose proof (csum_set alocal _ _ _ (CAsleep s t) H) as E2. cbn in E1, E2. nia.
  - rewrite set_nth_length. pose proof (csum_set arank _ _ _ (CDone s ok) H) as E1.
    pose proof (csum_set alocal _ _ _ (CDone s ok) H) as E2. cbn in E1, E2. nia.
Qed.
Lemma alloc_runs_end f : exists bound, forall k f', arun k f f' -> (k <= bound)%nat.
Proof.
  exists (apot f). intros k f' Hr. induction Hr as [f|k f1 f2 f3 S Hr IH]; [lia|].
  pose proof (aint_pot _ _ _ S eq_refl). lia.
Qed.
Lemma alloc_all_answered n f : areach n f ->
  (forall i t, nth_error (fa_st f) i = Some t -> inside t -> exists f', aint f (Some f')) /\
  (exists bound, forall k f', arun k f f' -> (k <= bound)%nat).
Proof. intros R. split; [intros i t; exact (alloc_not_stuck n f i t R)|apply alloc_runs_end]. Qed.
