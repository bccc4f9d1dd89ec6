(** Every step keeps the invariant, and which checks can fail. *)
From Coq Require Import Lia.
From Verif Require Import Spec.NegotiateSpec Proofs.QueueMonitorFacts Proofs.CountFacts Proofs.ThreadsCtlFacts Proofs.NegotiateFacts.
Open Scope Z_scope.

Section I.
Variable (cs : bool) (n : nat) (v0 : Z).
Notation ginv := (ginv cs n v0).
Notation tcoh_of s t bs fs := (tcoh (f_status (g_fun s)) (g_status s) (g_version s) (wk v0 s) t bs fs).

Lemma bst_gone s i bs : ginv s -> nth_error (b_st (g_bar s)) i = Some bs -> bs = BOut \/ bs = BPassed ->
  exists b, barrier_deregister (g_bar s) i = Ret b /\ binv n b.
Proof.
  intros G H O. destruct (barrier_deregister (g_bar s) i) as [b| |] eqn:E.
  - exists b. split; [reflexivity|]. destruct (binv_step n _ _ (gi_bar _ _ _ s G) (BS_leave _ i bs b H O E)) as (b' & X & B). now injection X as ->.
  - destruct (binv_step n _ _ (gi_bar _ _ _ s G) (BS_leave_crash _ i bs H O E)) as (b' & X & _). discriminate X.
  - exfalso. unfold barrier_deregister, checkForFinish in E. destruct (b_complete (g_bar s)); [discriminate E|].
    cbn [b_hits b_threads b_complete b_st] in E. destruct (_ <? _); [discriminate E|]. destruct (_ =? _); discriminate E.
Qed.
Lemma bst_hit s i : ginv s -> nth_error (b_st (g_bar s)) i = Some BOut ->
  exists b, barrier_execute (g_bar s) i = Ret b /\ binv n b.
Proof.
  intros G H. destruct (barrier_execute (g_bar s) i) as [b| |] eqn:E.
  - exists b. split; [reflexivity|]. destruct (binv_step n _ _ (gi_bar _ _ _ s G) (BS_execute _ i b H E)) as (b' & X & B). now injection X as ->.
  - destruct (binv_step n _ _ (gi_bar _ _ _ s G) (BS_execute_crash _ i H E)) as (b' & X & _). discriminate X.
  - exfalso. unfold barrier_execute, checkForFinish in E. destruct (b_complete (g_bar s)); [discriminate E|].
    cbn [b_hits b_threads b_complete b_st] in E. destruct (_ <? _); [discriminate E|]. destruct (_ =? _); discriminate E.
Qed.

Lemma foot_in s i t : ginv s -> nth_error (g_thr s) i = Some t -> foot cs v0 s t.
Proof. intros G H. apply (gi_foot _ _ _ s G). eapply nth_error_In; exact H. Qed.

Ltac look G H := match type of H with nth_error (g_thr ?s) ?i = Some ?t =>
  let bs := fresh "bs" in let fs := fresh "fs" in let Hb := fresh "Hb" in let Hf := fresh "Hf" in let T := fresh "T" in
  destruct (ginv_bst _ _ _ s i t G H) as (bs & Hb); destruct (ginv_fst _ _ _ s i t G H) as (fs & Hf);
  pose proof (gi_thr _ _ _ s G i t bs fs H Hb Hf) as T; unfold tcoh in T
  end.
(** A step of one thread on its own. *)
Ltac local G H := eapply (ginv_local cs n v0 _ _ _ _ _ G H); try reflexivity; try (exact (foot_in _ _ _ G H)); auto;
  let bs := fresh "bs" in let fs := fresh "fs" in let Hb := fresh "Hb" in let Hf := fresh "Hf" in let T := fresh "T" in let W := fresh "W" in
  intros bs fs Hb Hf T W; unfold tcoh in T |- *; cbn [n_pc at_pc at_pc_aborted n_ver n_abort].

Lemma out_fin F S (p q : Prop) bs fs : (p -> q) -> out F S p bs fs -> out F S q bs fs.
Proof. unfold out. tauto. Qed.

Lemma ginv_work s s' i t k k' : ginv s -> nth_error (g_thr s) i = Some t -> n_pc t = PWork k ->
  forall t', n_pc t' = PWork k' -> n_neg t' = n_neg t ->
  g_thr s' = set_nth (g_thr s) i t' -> g_offers s' = g_offers s -> g_bar s' = g_bar s -> g_fun s' = g_fun s ->
  g_version s' <= v0 -> (forall u, In u (g_thr s') -> foot cs v0 s' u) -> wk v0 s' k' -> (late k' = true -> n_ver t' = g_version s') -> ginv s'.
Proof.
  intros G H P t' P' Hneg Ht Ho Hb Hf Hl Hft W La. look G H. rewrite P in T. destruct T as (-> & -> & Wk & _).
  pose proof (ginv_working _ _ _ s i G Hf0) as F. pose proof (ginv_bpassed _ _ _ s i G Hb0) as C.
  constructor; rewrite ?Hf, ?Hb, ?Ho.
  - rewrite Ht, set_nth_length. apply (gi_len _ _ _ s G).
  - apply (gi_flen _ _ _ s G).
  - apply (gi_bar _ _ _ s G).
  - apply (gi_fun _ _ _ s G).
  - intros _. exact C.
  - unfold glob. rewrite Hf, F. exact I.
  - exact Hl.
  - intros u Iu Pu. unfold chosen. rewrite Ho. rewrite Ht in Iu. apply in_set in Iu.
    destruct Iu as [->|Iu]; [rewrite Hneg in *|]; apply (gi_neg _ _ _ s G); try assumption. eapply nth_error_In; exact H.
  - exact Hft.
  - intros j u bs fs Hu Hbs Hfs. rewrite Ht in Hu. apply nth_set in Hu. destruct Hu as [[<- ->]|[N Hu]].
    + unfold tcoh. rewrite P'. rewrite Hb0 in Hbs. rewrite Hf0 in Hfs. injection Hbs as <-. injection Hfs as <-. auto.
    + pose proof (gi_thr _ _ _ s G j u bs fs Hu Hbs Hfs) as T.
      destruct (ginv_inside _ _ _ s j u G C ltac:(rewrite F; discriminate) Hu) as [Q|[Q|[Q|(k0 & Q)]]]; unfold tcoh in *; rewrite Q in *; try exact T.
      destruct T as (_ & -> & _). destruct N. exact (ginv_one _ _ _ s i j G Hf0 Hfs).
Qed.

Lemma ginv_init : ginv (nsys_init cs n v0).
Proof.
  constructor; cbn.
  - apply repeat_length.
  - apply repeat_length.
  - apply binv_init.
  - apply (finv_reach n). constructor.
  - intros X. now destruct X.
  - unfold glob. cbn. auto.
  - lia.
  - intros t I. apply repeat_spec in I. subst t. cbn. lia.
  - intros t I. apply repeat_spec in I. subst t. left. reflexivity.
  - intros i t bs fs H1 H2 H3. apply nth_error_In, repeat_spec in H1, H2, H3. subst. unfold tcoh, out. cbn. repeat split; auto. discriminate.
Qed.

Lemma ginv_int s s' : ginv s -> nint cs s (Some s') -> ginv s'.
Proof.
  intros G St. inversion St as
    [? i t H P|? i t b H P E| |? i t x H P X|? i t x H P X A|? i t x H P X A| | |? i t H P L S|? i t H P L S|? i t b H P E|
     |? i t H P B|? i t H P B|? i t H P B|? i t H P B|? i t H P B| |? i t H P B S|? i t H P B S|? i t H P|? i t H P|? i t H P E| |? i t v H P E V
     |? i t v H P|? i t H P|? i t H P|? i t x H P]; subst; clear St.
  - local G H. rewrite P in T. destruct T as (O & _). eapply out_fin; [|exact O]. auto.
  - look G H. rewrite P in T. assert (O : bs = BOut \/ bs = BPassed) by (unfold out in T; tauto).
    destruct (bst_gone s i bs G Hb O) as (b' & E' & B). rewrite E in E'. injection E' as <-. destruct (bar_dereg _ _ _ E) as (C1 & C2 & C3).
    eapply (ginv_keep cs n v0 s _ i t (at_pc t PGone) G H); try reflexivity; auto.
    + exact (foot_in _ _ _ G H).
    + apply (gi_fun _ _ _ s G).
    + apply (gi_flen _ _ _ s G).
    + intros bs' fs' Hb' Hf' _. unfold tcoh. cbn. apply C3 in Hb'. cbn in Hf'. rewrite Hf in Hf'. injection Hf' as <-.
      split; [exact Hb'|]. unfold out in T. destruct T as [[_ ->]|(_ & [->| ->] & _)]; split; discriminate.
  - local G H. rewrite P in T. destruct T as (O & _). eapply out_fin; [|exact O]. auto.
  - local G H. rewrite P in T. destruct T as (O & V & _). specialize (V X). split; [eapply out_fin; [|exact O]; auto|auto].
  - local G H. rewrite P in T. destruct T as (O & V & M). specialize (V X). destruct x; cbn [n_pc at_pc n_ver n_abort].
    + split; [eapply out_fin; [|exact O]; discriminate|auto].
    + split; [eapply out_fin; [|exact O]; discriminate|auto].
    + now destruct X.
  - local G H. rewrite P in T. destruct T as (O & V & M). split; [eapply out_fin; [|exact O]; auto|]. split; [auto|discriminate].
  - local G H. rewrite P in T. destruct T as (O & V & M). unfold out in O. destruct O as [O|(O1 & O2 & O3 & [O4|O4])]; [exact O| |destruct O4].
    exfalso. pose proof (gi_glob _ _ _ s G) as Gl. unfold glob in Gl. rewrite O3 in Gl. destruct Gl as [[Gl _]|[Gl _]]; congruence.
  - look G H. rewrite P in T. destruct T as (-> & ->). destruct (bst_hit s i G Hb) as (b' & E' & B). rewrite E in E'. injection E' as <-.
    destruct (bar_exec _ _ _ E) as (C1 & C2 & C3).
    eapply (ginv_keep cs n v0 s _ i t (at_pc t PBarrier) G H); try reflexivity; auto.
    + exact (foot_in _ _ _ G H).
    + apply (gi_fun _ _ _ s G).
    + apply (gi_flen _ _ _ s G).
    + intros bs' fs' Hb' Hf' _. unfold tcoh. cbn. apply C3 in Hb'. cbn in Hf'. rewrite Hf in Hf'. injection Hf' as <-. tauto.
  - look G H. rewrite P in T. destruct T as (_ & ->).
    destruct (binv_step n _ _ (gi_bar _ _ _ s G) (BS_woken _ i B)) as (b' & X & Bi). injection X as <-.
    eapply (ginv_keep cs n v0 s _ i t t G H); try reflexivity; auto.
    + cbn. symmetry. apply set_same, H.
    + exact (foot_in _ _ _ G H).
    + apply (gi_fun _ _ _ s G).
    + apply (gi_flen _ _ _ s G).
    + intros j N. left. cbn. apply nth_set_other. congruence.
    + intros bs' fs' Hb' Hf' _. unfold tcoh. rewrite P. cbn in Hf'. rewrite Hf in Hf'. injection Hf' as <-. split; [|reflexivity].
      cbn in Hb'. apply nth_set in Hb'. destruct Hb' as [[_ ->]|[X _]]; [|congruence]. destruct (b_complete (g_bar s)); auto.
  - look G H. rewrite P in T. destruct T as (_ & ->).
    eapply (ginv_keep cs n v0 s _ i t (at_pc t PFunnel) G H); try reflexivity; auto.
    + exact (foot_in _ _ _ G H).
    + apply (gi_bar _ _ _ s G).
    + cbn. eapply finv_step; [apply (gi_fun _ _ _ s G)|]. right. constructor. exact Hf.
    + cbn. rewrite set_nth_length. apply (gi_flen _ _ _ s G).
    + intros j N. cbn. apply nth_set_other. congruence.
    + intros bs' fs' Hb' Hf' _. unfold tcoh. cbn. cbn in Hb'. rewrite B in Hb'. injection Hb' as <-.
      cbn in Hf'. apply nth_set in Hf'. destruct Hf' as [[_ ->]|[X _]]; [|congruence]. auto.
  - look G H. rewrite P in T. destruct T as (-> & _). rewrite B in Hf. injection Hf as <-.
    assert (Fi : finv (funnel_getStatus (g_fun s) i)) by (eapply finv_step; [apply (gi_fun _ _ _ s G)|left; constructor; exact B]).
    destruct (f_status (g_fun s)) eqn:F.
    + pose proof (ginv_bpassed _ _ _ s i G Hb) as C. pose proof (gi_glob _ _ _ s G) as Gl. unfold glob in Gl. rewrite F in Gl.
      assert (Fs : funnel_getStatus (g_fun s) i = {| f_status := FProgress; f_runs := S (f_runs (g_fun s)); f_successes := f_successes (g_fun s);
                 f_st := set_nth (f_st (g_fun s)) i FWorking |}) by (unfold funnel_getStatus; now rewrite F).
      constructor; cbn [g_thr g_fun g_bar g_set_fun g_set g_status g_version g_offers g_abort].
      * rewrite set_nth_length. apply (gi_len _ _ _ s G).
      * rewrite Fs. cbn. rewrite set_nth_length. apply (gi_flen _ _ _ s G).
      * apply (gi_bar _ _ _ s G).
      * exact Fi.
      * auto.
      * unfold glob. cbn [g_fun g_set_fun]. rewrite Fs. exact I.
      * apply (gi_low _ _ _ s G).
      * intros u Iu Pu. apply in_set in Iu. destruct Iu as [->|Iu]; cbn in *; apply (gi_neg _ _ _ s G _); try assumption. eapply nth_error_In; exact H.
      * intros u Iu. apply in_set in Iu. destruct Iu as [->|Iu]; [exact (foot_in _ _ _ G H)|exact (gi_foot _ _ _ s G u Iu)].
      * intros j u bs fs Hu Hbs Hfs. rewrite Fs in Hfs |- *. cbn [f_st f_status] in *. apply nth_set in Hu. destruct Hu as [[<- ->]|[N Hu]].
        -- unfold tcoh. cbn. apply nth_set in Hfs. destruct Hfs as [[_ ->]|[X _]]; [|congruence]. rewrite Hb in Hbs. injection Hbs as <-. repeat split; try apply Gl; discriminate.
        -- rewrite nth_set_other in Hfs by exact N. pose proof (gi_thr _ _ _ s G j u bs fs Hu Hbs Hfs) as T. rewrite F in T.
           destruct (ginv_inside _ _ _ s j u G C ltac:(rewrite F; discriminate) Hu) as [Q|[Q|[Q|(k0 & Q)]]]; unfold tcoh in *; rewrite Q in *; try exact T.
           ++ destruct T as (T1 & T2). split; [exact T1|]. destruct T2 as [T2|[[_ T2]|[[_ T2]|[T2|[_ T2]]]]]; auto; congruence.
           ++ destruct T as (_ & -> & _). pose proof (ginv_working _ _ _ s j G Hfs). congruence.
    + assert (Fs : funnel_getStatus (g_fun s) i = f_set (g_fun s) i FSawProgress) by (unfold funnel_getStatus; now rewrite F). rewrite Fs in *.
      eapply (ginv_keep cs n v0 s _ i t (at_pc t PFunnel) G H); try reflexivity; auto.
      * exact (foot_in _ _ _ G H).
      * apply (gi_bar _ _ _ s G).
      * cbn. rewrite set_nth_length. apply (gi_flen _ _ _ s G).
      * intros j N. cbn. apply nth_set_other. congruence.
      * intros bs' fs' Hb' Hf' _. unfold tcoh. cbn. cbn in Hb'. rewrite Hb in Hb'. injection Hb' as <-.
        cbn in Hf'. apply nth_set in Hf'. destruct Hf' as [[_ ->]|[X _]]; [|congruence]. rewrite F. split; [reflexivity|right; left; split; [reflexivity|discriminate]].
    + assert (Fs : funnel_getStatus (g_fun s) i = f_set (g_fun s) i FSawEnd) by (unfold funnel_getStatus; now rewrite F). rewrite Fs in *.
      eapply (ginv_keep cs n v0 s _ i t (at_pc t PFunnel) G H); try reflexivity; auto.
      * exact (foot_in _ _ _ G H).
      * apply (gi_bar _ _ _ s G).
      * cbn. rewrite set_nth_length. apply (gi_flen _ _ _ s G).
      * intros j N. cbn. apply nth_set_other. congruence.
      * intros bs' fs' Hb' Hf' _. unfold tcoh. cbn. cbn in Hb'. rewrite Hb in Hb'. injection Hb' as <-.
        cbn in Hf'. apply nth_set in Hf'. destruct Hf' as [[_ ->]|[X _]]; [|congruence]. rewrite F. auto 8.
  - look G H. rewrite P in T. destruct T as (-> & T). rewrite B in Hf. injection Hf as <-.
    eapply (ginv_keep cs n v0 s _ i t t G H); try reflexivity; auto.
    + cbn. symmetry. apply set_same, H.
    + exact (foot_in _ _ _ G H).
    + apply (gi_bar _ _ _ s G).
    + cbn. eapply finv_step; [apply (gi_fun _ _ _ s G)|]. left. constructor. exact B.
    + cbn. rewrite set_nth_length. apply (gi_flen _ _ _ s G).
    + intros j N. cbn. apply nth_set_other. congruence.
    + intros bs' fs' Hb' Hf' _. unfold tcoh. rewrite P. cbn in Hb'. rewrite Hb in Hb'. injection Hb' as <-.
      cbn in Hf'. apply nth_set in Hf'. destruct Hf' as [[_ ->]|[X _]]; [|congruence]. split; [reflexivity|].
      destruct (f_status (g_fun s)); auto 8.
  - look G H. rewrite P in T. destruct T as (-> & T). rewrite B in Hf. injection Hf as <-.
    eapply (ginv_keep cs n v0 s _ i t t G H); try reflexivity; auto.
    + cbn. symmetry. apply set_same, H.
    + exact (foot_in _ _ _ G H).
    + apply (gi_bar _ _ _ s G).
    + cbn. eapply finv_step; [apply (gi_fun _ _ _ s G)|]. left. constructor. exact B.
    + cbn. rewrite set_nth_length. apply (gi_flen _ _ _ s G).
    + intros j N. cbn. apply nth_set_other. congruence.
    + intros bs' fs' Hb' Hf' _. unfold tcoh. rewrite P. cbn in Hb'. rewrite Hb in Hb'. injection Hb' as <-.
      cbn in Hf'. apply nth_set in Hf'. destruct Hf' as [[_ ->]|[X _]]; [|congruence]. auto.
  - look G H. rewrite P in T. destruct T as (_ & T). rewrite B in Hf. injection Hf as <-.
    assert (F : f_status (g_fun s) = FEnd) by (destruct T as [X|[[X _]|[[X _]|[X|[_ X]]]]]; congruence).
    pose proof (gi_glob _ _ _ s G) as Gl. unfold glob in Gl. rewrite F in Gl.
    local G H. rewrite P in T0. destruct T0 as (-> & _). rewrite B in Hf. injection Hf as <-.
    split; [right; auto 8|]. split; [intros X; now destruct X|discriminate].
  - look G H. rewrite P in T. destruct T as (_ & T). rewrite B in Hf. injection Hf as <-.
    assert (F : f_status (g_fun s) = FEnd) by (destruct T as [X|[[X _]|[[X _]|[X|[_ X]]]]]; congruence).
    local G H. rewrite P in T0. destruct T0 as (-> & _). rewrite B in Hf. injection Hf as <-.
    split; [right; auto 8|]. split; [reflexivity|discriminate].
  - look G H. rewrite P in T. destruct T as (_ & _ & (S & V) & L).
    eapply (ginv_work s _ i t _ WCollect G H P (at_pc t (PWork WCollect))); try reflexivity; try (intros X; discriminate X); try (intros _; exact (L eq_refl)); try (intros _; reflexivity).
    + apply (gi_low _ _ _ s G).
    + intros u Iu. cbn in Iu. apply in_set in Iu. destruct Iu as [->|Iu]; [exact (foot_in _ _ _ G H)|exact (gi_foot _ _ _ s G u Iu)].
    + cbn. auto.
  - look G H. rewrite P in T. destruct T as (_ & _ & (S & V) & L).
    eapply (ginv_work s _ i t _ (WNotify NEnd) G H P (at_pc t (PWork (WNotify NEnd)))); try reflexivity; try (intros X; discriminate X); try (intros _; exact (L eq_refl)); try (intros _; reflexivity).
    + apply (gi_low _ _ _ s G).
    + intros u Iu. cbn in Iu. apply in_set in Iu. destruct Iu as [->|Iu]; [exact (foot_in _ _ _ G H)|exact (gi_foot _ _ _ s G u Iu)].
    + cbn. auto.
  - look G H. rewrite P in T. destruct T as (_ & _ & (S & V) & L).
    eapply (ginv_work s _ i t _ (WNotify NEnd) G H P (at_pc t (PWork (WNotify NEnd)))); try reflexivity; try (intros X; discriminate X); try (intros _; exact (L eq_refl)); try (intros _; reflexivity).
    + apply (gi_low _ _ _ s G).
    + intros u Iu. cbn in Iu. apply in_set in Iu. destruct Iu as [->|Iu]; [exact (foot_in _ _ _ G H)|exact (gi_foot _ _ _ s G u Iu)].
    + cbn. auto.
  - look G H. rewrite P in T. destruct T as (_ & _ & (S & W) & L). destruct (pick_pos _ _ E V) as (I1 & I2).
    apply in_map_iff in I1. destruct I1 as (u & <- & Iu).
    eapply (ginv_work s _ i t _ (WVersion (n_neg u)) G H P (at_pc t (PWork (WVersion (n_neg u))))); try reflexivity; try (intros X; discriminate X); try (intros _; exact (L eq_refl)); try (intros _; reflexivity).
    + apply (gi_low _ _ _ s G).
    + intros w Iw. cbn in Iw. apply in_set in Iw. destruct Iw as [->|Iw]; [exact (foot_in _ _ _ G H)|exact (gi_foot _ _ _ s G w Iw)].
    + cbn. split; [exact S|]. split; [exact W|]. split; [exact (gi_neg _ _ _ s G u Iu V)|].
      intros w Iw Pw. cbn in Iw. apply I2; [|exact Pw]. apply in_set in Iw.
      destruct Iw as [->|Iw]; cbn; apply in_map; [eapply nth_error_In; exact H|exact Iw].
  - look G H. rewrite P in T. destruct T as (_ & _ & (S & W & Ch & Ag) & L).
    eapply (ginv_work s _ i t _ WResolve G H P {| n_pc := PWork WResolve; n_ver := v; n_footer := footer_for cs v; n_neg := n_neg t; n_abort := n_abort t |}); try reflexivity; try (intros X; discriminate X); try (intros _; exact (L eq_refl)); try (intros _; reflexivity).
    + cbn. destruct Ch. lia.
    + intros u Iu. cbn in Iu. apply in_set in Iu. destruct Iu as [->|Iu]; [right; reflexivity|].
      destruct (gi_foot _ _ _ s G u Iu) as [X|X]; left; [exact X|]. now rewrite W in X.
    + cbn. split; [exact S|]. split; [exact Ch|]. intros u Iu Pu. cbn in Iu. apply in_set in Iu. destruct Iu as [->|Iu]; [|exact (Ag u Iu Pu)].
      cbn in *. apply Ag; [eapply nth_error_In; exact H|exact Pu].
  - look G H. rewrite P in T. destruct T as (_ & _ & (S & Ch & Ag) & L).
    eapply (ginv_work s _ i t _ WClear G H P (at_pc t (PWork WClear))); try reflexivity; try (intros X; discriminate X); try (intros _; exact (L eq_refl)); try (intros _; reflexivity).
    + apply (gi_low _ _ _ s G).
    + intros u Iu. cbn in Iu. apply in_set in Iu. destruct Iu as [->|Iu]; [exact (foot_in _ _ _ G H)|exact (gi_foot _ _ _ s G u Iu)].
    + cbn. split; [reflexivity|]. split; [exact Ch|]. intros u Iu Pu. cbn in Iu. apply in_set in Iu. destruct Iu as [->|Iu]; [|exact (Ag u Iu Pu)].
      cbn in *. apply Ag; [eapply nth_error_In; exact H|exact Pu].
  - look G H. rewrite P in T. destruct T as (_ & _ & (S & Ch & Ag) & L).
    eapply (ginv_work s _ i t _ (WNotify NOther) G H P (at_pc t (PWork (WNotify NOther)))); try reflexivity; try (intros X; discriminate X); try (intros _; exact (L eq_refl)); try (intros _; reflexivity).
    + apply (gi_low _ _ _ s G).
    + intros u Iu. cbn in Iu. apply in_set in Iu. destruct Iu as [->|Iu]; [exact (foot_in _ _ _ G H)|exact (gi_foot _ _ _ s G u Iu)].
    + cbn. split; [exact S|]. split; [exact Ch|]. split.
      * intros u Iu Pu. cbn in Iu. apply in_set in Iu. destruct Iu as [->|Iu]; [|exact (Ag u Iu Pu)].
        cbn in *. apply Ag; [eapply nth_error_In; exact H|exact Pu].
      * destruct (Z.eqb_spec (g_abort s) VERSION_MISMATCH) as [X|X]; cbn [negb]; [discriminate|exact X].
  - look G H. rewrite P in T. destruct T as (-> & -> & Wk & L).
    pose proof (ginv_working _ _ _ s i G Hf) as F. pose proof (ginv_bpassed _ _ _ s i G Hb) as C.
    constructor; cbn [g_thr g_fun g_bar g_set_fun g_set g_status g_version g_offers g_abort].
    + rewrite set_nth_length. apply (gi_len _ _ _ s G).
    + cbn. rewrite set_nth_length, map_length. apply (gi_flen _ _ _ s G).
    + apply (gi_bar _ _ _ s G).
    + eapply finv_step; [apply (gi_fun _ _ _ s G)|left; constructor; exact Hf].
    + auto.
    + unfold glob. cbn. destruct x; cbn in Wk; [right; destruct Wk as (S & Ch & _); auto|destruct Wk|left; exact Wk].
    + apply (gi_low _ _ _ s G).
    + intros u Iu Pu. apply in_set in Iu. destruct Iu as [->|Iu]; cbn in *; apply (gi_neg _ _ _ s G _); try assumption. eapply nth_error_In; exact H.
    + intros u Iu. apply in_set in Iu. destruct Iu as [->|Iu]; [exact (foot_in _ _ _ G H)|exact (gi_foot _ _ _ s G u Iu)].
    + intros j u bs fs Hu Hbs Hfs. cbn [funnel_success f_st f_status] in *. apply nth_set in Hu. destruct Hu as [[<- ->]|[N Hu]].
      * rewrite Hb in Hbs. injection Hbs as <-. apply nth_set in Hfs. destruct Hfs as [[_ ->]|[X _]]; [|congruence].
        unfold tcoh. cbn. destruct x; cbn in Wk.
        -- destruct Wk as (S & _). split; [right; auto 8|]. split; [intros _; exact (L eq_refl)|discriminate].
        -- destruct Wk.
        -- split; [right; auto 8|]. split; [intros X; now destruct X|discriminate].
      * rewrite nth_set_other in Hfs by exact N. rewrite nth_error_map in Hfs.
        destruct (nth_error (f_st (g_fun s)) j) as [f0|] eqn:F0; [|discriminate Hfs]. injection Hfs as <-.
        pose proof (gi_thr _ _ _ s G j u bs f0 Hu Hbs F0) as T. rewrite F in T.
        destruct (ginv_inside _ _ _ s j u G C ltac:(rewrite F; discriminate) Hu) as [Q|[Q|[Q|(k0 & Q)]]]; unfold tcoh in *; rewrite Q in *.
        -- destruct T as (T1 & ->). auto.
        -- destruct T as (T1 & T2). split; [exact T1|]. destruct T2 as [->|[[-> _]|[[-> _]|[->|[_ T2]]]]]; cbn; auto 8; try congruence.
           right; left; split; [reflexivity|discriminate].
        -- destruct T as (T1 & T2 & T3). split; [exact T1|]. destruct f0; cbn; split; congruence.
        -- destruct T as (_ & -> & _). destruct N. exact (ginv_one _ _ _ s i j G Hf F0).
Qed.
End I.
