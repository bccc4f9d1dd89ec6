(** While the directory is trusted, careful steps keep every file right. *)
From Verif Require Export Proofs.CrashStep Spec.TreeResumeSpec.
From Verif Require Import Proofs.DiskFacts.
From Coq Require Import Lia.
Open Scope Z_scope.

Section Inv.
Context (c : ccfg) (p : fplans) (infos : list file_chunks).
Hypothesis Hpre : c_prealloc c = false.
Hypothesis Hp : tree_plan p infos.

Definition starts_ok (told : list (list Z * Z)) (b : block_details) : Prop :=
  bd_alloc b = TO_BE_DELETED \/
  exists f, p (bd_seqId b) = Some f /\
    (first_offset infos f (bd_offset b) \/ exists e, In (bd_fileName b, e) told /\ bd_offset b <= e).
Definition reaches (d : disk) (n : list Z) (e : Z) : Prop := forall v, d n = Some v -> e <= zlen v.

Definition top_ok (told : list (list Z * Z)) (s : cstate) (op : cop) : Prop :=
  match op with
  | OIdle => True
  | OHeader b => planned p b /\ starts_ok told b
  | OTrunc b | OAlloc b | OInval b | OCreate b =>
      planned p b /\ cs_map s (bd_seqId b) = Some AInProgress /\
      exists f, p (bd_seqId b) = Some f /\ first_offset infos f (bd_offset b)
  | OWrite b n ok =>
      planned p b /\ cs_map s (bd_seqId b) = Some AAllocated /\ 0 <= n <= bd_dataSize b /\
      reaches (cs_disk s) (bd_fileName b) (bd_offset b + n)
  end.

Record tinv (told : list (list Z * Z)) (s : cstate) : Prop := {
  ti_right : all_right c (cs_disk s);
  ti_told : forall n e, In (n, e) told -> reaches (cs_disk s) n e /\
    exists q f, p q = Some f /\ pl_name f = n /\ cs_map s q = Some AAllocated;
  ti_small : forall q f z v, p q = Some f -> pl_alloc f = EXISTS_TOO_SMALL -> first_offset infos f z ->
    cs_disk s (pl_name f) = Some v -> z <= zlen v <= pl_size f;
  ti_thr : forall i t, nth_error (cs_thr s) i = Some t -> top_ok told s (ct_op t);
  ti_uniq : forall i j t u b b', nth_error (cs_thr s) i = Some t -> nth_error (cs_thr s) j = Some u ->
    allocating (ct_op t) = Some b -> allocating (ct_op u) = Some b' -> bd_seqId b = bd_seqId b' -> i = j
}.

Lemma tinv_step told told' s s' i t' q0 : tinv told s ->
  cs_thr s' = set_nth (cs_thr s) i t' ->
  (forall q, cs_map s' q = cs_map s q \/
     (q = q0 /\ cs_map s q0 <> Some AAllocated /\
      forall j u b, j <> i -> nth_error (cs_thr s) j = Some u -> allocating (ct_op u) = Some b ->
        bd_seqId b <> q0)) ->
  (forall n v', cs_disk s' n = Some v' ->
     (exists v, cs_disk s n = Some v /\ zlen v <= zlen v') \/
     (exists f, p q0 = Some f /\ pl_name f = n /\ cs_map s q0 <> Some AAllocated)) ->
  all_right c (cs_disk s') ->
  (forall q f z v, p q = Some f -> pl_alloc f = EXISTS_TOO_SMALL -> first_offset infos f z ->
    cs_disk s' (pl_name f) = Some v -> z <= zlen v <= pl_size f) ->
  top_ok told' s' (ct_op t') ->
  incl told told' ->
  (forall n e, In (n, e) told' -> In (n, e) told \/
     (reaches (cs_disk s') n e /\ exists q f, p q = Some f /\ pl_name f = n /\ cs_map s' q = Some AAllocated)) ->
  (forall b, allocating (ct_op t') = Some b ->
     forall j u b', j <> i -> nth_error (cs_thr s) j = Some u -> allocating (ct_op u) = Some b' ->
       bd_seqId b' <> bd_seqId b) ->
  tinv told' s'.
Proof.
  intros [Ir Itd Ism Ith Iu] Et Hm Hd Hr Hsm Hop Hincl Htold Huniq.
  assert (Grow : forall n e q f, p q = Some f -> pl_name f = n -> cs_map s q = Some AAllocated ->
            reaches (cs_disk s) n e -> reaches (cs_disk s') n e).
  { intros n e q f Hq Hn Ha R v' Hv'. destruct (Hd n v' Hv') as [(v & Hv & L)|(f' & Hq0 & Hn' & Na)].
    - specialize (R v Hv). lia.
    - exfalso. assert (q = q0) as -> by (eapply (tp_once _ _ Hp); eauto; congruence). contradiction. }
  assert (Keep : forall q, cs_map s q = Some AAllocated -> cs_map s' q = Some AAllocated).
  { intros q Ha. destruct (Hm q) as [->|(-> & Na & _)]; [exact Ha|contradiction]. }
  constructor; [exact Hr| |exact Hsm| |].
  - intros n e Hi. destruct (Htold n e Hi) as [Ho|Hn]; [|exact Hn].
    destruct (Itd n e Ho) as (R & q & f & Hq & Hn & Ha). split; [exact (Grow n e q f Hq Hn Ha R)|].
    exists q, f; auto.
  - intros j u Hj. rewrite Et in Hj. apply nth_set_cases in Hj. destruct Hj as [[-> ->]|[Nj Hj]]; [exact Hop|].
    pose proof (Ith j u Hj) as O. destruct (ct_op u) eqn:Eo; cbn [top_ok] in *; auto.
    + destruct O as [P S]. split; [exact P|]. destruct S as [S|(f & Hf & S)]; [left; exact S|right].
      exists f; split; [exact Hf|]. destruct S as [S|(e & He & S)]; [left; exact S|right; exists e; auto].
    + destruct O as (P & A & S). split; [exact P|]. split; [|exact S].
      destruct (Hm (bd_seqId b)) as [->|(E & _ & N)]; [exact A|].
      exfalso. apply (N j u b Nj Hj); [rewrite Eo; reflexivity|exact E].
    + destruct O as (P & A & S). split; [exact P|]. split; [|exact S].
      destruct (Hm (bd_seqId b)) as [->|(E & _ & N)]; [exact A|].
      exfalso. apply (N j u b Nj Hj); [rewrite Eo; reflexivity|exact E].
    + destruct O as (P & A & S). split; [exact P|]. split; [|exact S].
      destruct (Hm (bd_seqId b)) as [->|(E & _ & N)]; [exact A|].
      exfalso. apply (N j u b Nj Hj); [rewrite Eo; reflexivity|exact E].
    + destruct O as (P & A & S). split; [exact P|]. split; [|exact S].
      destruct (Hm (bd_seqId b)) as [->|(E & _ & N)]; [exact A|].
      exfalso. apply (N j u b Nj Hj); [rewrite Eo; reflexivity|exact E].
    + destruct O as (P & A & B & R). split; [exact P|]. split; [apply Keep, A|]. split; [exact B|].
      eapply Grow; [exact (proj1 P)|reflexivity|exact A|exact R].
  - intros j k u v b b' Hj Hk Ab Ab' E. rewrite Et in Hj, Hk. apply nth_set_cases in Hj, Hk.
    destruct Hj as [[-> ->]|[Nj Hj]], Hk as [[-> ->]|[Nk Hk]].
    + reflexivity.
    + exfalso. exact (Huniq b Ab k v b' Nk Hk Ab' (eq_sym E)).
    + exfalso. exact (Huniq b' Ab' j u b Nj Hj Ab E).
    + exact (Iu _ _ _ _ _ _ Hj Hk Ab Ab' E).
Qed.

(** Neither the disk nor the map changes. *)
Lemma tinv_quiet told told' s s' i t' : tinv told s ->
  cs_thr s' = set_nth (cs_thr s) i t' -> cs_map s' = cs_map s -> cs_disk s' = cs_disk s ->
  top_ok told' s' (ct_op t') -> incl told told' ->
  (forall n e, In (n, e) told' -> In (n, e) told \/
     (reaches (cs_disk s') n e /\ exists q f, p q = Some f /\ pl_name f = n /\ cs_map s' q = Some AAllocated)) ->
  (forall b, allocating (ct_op t') = Some b ->
     exists t b0, nth_error (cs_thr s) i = Some t /\ allocating (ct_op t) = Some b0 /\ bd_seqId b0 = bd_seqId b) ->
  tinv told' s'.
Proof.
  intros I Et Em Ed Hop Hin Ht Hu. apply (tinv_step told told' s s' i t' 0 I Et); auto.
  - intros q; left; rewrite Em; reflexivity.
  - intros n v' Hv. left. exists v'. rewrite Ed in Hv. split; [exact Hv|lia].
  - rewrite Ed. apply (ti_right _ _ I).
  - rewrite Ed. apply (ti_small _ _ I).
  - intros b Hb j u b' Nj Hj Ab' E. destruct (Hu b Hb) as (t & b0 & Hi & Ab & E0).
    apply Nj. eapply (ti_uniq _ _ I); eauto. congruence.
Qed.

Lemma right_put f name pos bs : (forall x v, rd f x = Some v -> v = c_src c name x) ->
  0 <= pos <= zlen f -> right_bytes (c_src c name) pos bs = true ->
  forall x v, rd (file_put f pos bs) x = Some v -> v = c_src c name x.
Proof.
  intros Hf Hpos Hr x v E. destruct bs as [|b bs]; [cbn [file_put] in E; exact (Hf x v E)|].
  pose proof (rd_bound _ _ _ E) as B. rewrite rd_put in E by (discriminate || lia).
  destruct (Z.ltb_spec x pos).
  - destruct (Z.ltb_spec x (zlen f)); [exact (Hf x v E)|lia].
  - destruct (Z.ltb_spec x (pos + zlen (b :: bs))); [|exact (Hf x v E)].
    rewrite (right_at _ _ _ x Hr) in E by lia. injection E as <-; reflexivity.
Qed.
Lemma put_longer f pos bs : 0 <= pos -> zlen f <= zlen (file_put f pos bs) /\
  pos + zlen bs <= zlen (file_put f pos bs) \/ bs = [] /\ file_put f pos bs = f.
Proof.
  intros H. destruct bs as [|b bs]; [right; auto|left]. rewrite zlen_put by (discriminate || lia). lia.
Qed.
Lemma cut_cases size f : cut_size c size f = f \/ cut_size c size f = [] .
Proof.
  unfold cut_size. rewrite Hpre. destruct (size <? zlen f); [right; reflexivity|left; reflexivity].
Qed.
Lemma grow_same size f : grow_size c size f = f.
Proof. unfold grow_size. rewrite Hpre. cbn [negb]. rewrite orb_true_r. reflexivity. Qed.

Lemma plan_of b f : planned p b -> p (bd_seqId b) = Some f ->
  pl_name f = bd_fileName b /\ pl_size f = bd_fileSize b /\ pl_alloc f = bd_alloc b.
Proof. intros [H _] E. rewrite H in E. injection E as <-. auto. Qed.
Lemma plan_same b q f : planned p b -> p q = Some f -> pl_name f = bd_fileName b -> q = bd_seqId b.
Proof. intros [H _] E N. eapply (tp_once _ _ Hp); [exact E|exact H|exact N]. Qed.

(** The file holds at least what precedes the block. *)
Lemma start_reached told s b : tinv told s -> planned p b -> bd_alloc b <> TO_BE_DELETED ->
  starts_ok told b -> reaches (cs_disk s) (bd_fileName b) (bd_offset b).
Proof.
  intros I P Nd [S|(f & Hf & S)]; [contradiction|]. destruct (plan_of b f P Hf) as (En & Ez & Ea).
  destruct S as [S|(e & He & S)].
  - intros v Hv. destruct S as [[_ ->]|[Es S]]; [apply zlen_nonneg|].
    rewrite <- En in Hv. exact (proj1 (ti_small _ _ I _ _ _ _ Hf Es (or_intror (conj Es S)) Hv)).
  - intros v Hv. pose proof (proj1 (ti_told _ _ I _ _ He) v Hv). lia.
Qed.
Lemma not_told told s b e : tinv told s -> planned p b -> cs_map s (bd_seqId b) <> Some AAllocated ->
  ~ In (bd_fileName b, e) told.
Proof.
  intros I P N Hi. destruct (ti_told _ _ I _ _ Hi) as (_ & q & f & Hq & Hn & Ha).
  rewrite (plan_same b q f P Hq Hn) in Ha. contradiction.
Qed.

Lemma all_right_put d n f : all_right c d -> (forall x v, rd f x = Some v -> v = c_src c n x) ->
  all_right c (dput d n (Some f)).
Proof.
  intros H Hf m g x v. unfold dput. destruct (str_eqb m n) eqn:E; [|apply H].
  apply str_eqb_eq in E. subst m. intros G; injection G as <-. apply Hf.
Qed.
Lemma rd_nil {A} (x : Z) (v : A) : rd [] x <> Some v.
Proof. unfold rd. destruct (x <? 0); [discriminate|]. destruct (Z.to_nat x); discriminate. Qed.

Lemma open_tinv told s i t b s' : tinv told s -> nth_error (cs_thr s) i = Some t -> ct_op t = OHeader b ->
  c_open c s i t b = Some s' -> tinv told s'.
Proof.
  intros I Hi Ho E. pose proof (ti_thr _ _ I _ _ Hi) as O. rewrite Ho in O. cbn [top_ok] in O.
  destruct O as [P S]. unfold c_open in E.
  assert (Idle : forall s1 w, cs_thr s1 = cs_thr s -> cs_map s1 = cs_map s -> cs_disk s1 = cs_disk s ->
            tinv told (set_thr s1 i {| ct_op := OIdle; ct_wait := w |})).
  { intros s1 w E1 E2 E3. apply (tinv_quiet told told s _ i {| ct_op := OIdle; ct_wait := w |} I); cbn;
      [rewrite E1; reflexivity|exact E2|exact E3|exact Logic.I|apply incl_refl|auto|discriminate]. }
  destruct (Z.eqb_spec (bd_alloc b) TO_BE_DELETED) as [Ed|Nd].
  - injection E as <-. destruct (c_delete c); [|apply Idle; reflexivity].
    apply (tinv_step told told s _ i {| ct_op := OIdle; ct_wait := ct_wait t ++ [(b, true)] |} (bd_seqId b) I);
      cbn; [reflexivity|auto| | | |exact Logic.I|apply incl_refl|auto|discriminate].
    + intros n v'. unfold dput. destruct (str_eqb n (bd_fileName b)); [discriminate|].
      intros Hv. left. exists v'. split; [exact Hv|lia].
    + intros n f x v. unfold dput. destruct (str_eqb n (bd_fileName b)); [discriminate|].
      apply (ti_right _ _ I).
    + intros q f z v Hq Ha Hz. unfold dput. destruct (str_eqb (pl_name f) (bd_fileName b)); [discriminate|].
      apply (ti_small _ _ I _ _ _ _ Hq Ha Hz).
  - destruct (cs_map s (bd_seqId b)) as [[ | | ]|] eqn:Em; [discriminate E| | |].
    + assert (R := start_reached told s b I P Nd S).
      destruct (cs_disk s (bd_fileName b)) as [v|] eqn:Hv; injection E as <-; [|apply Idle; reflexivity].
      apply (tinv_quiet told told s _ i (with_op t (OWrite b 0 true)) I); cbn;
        [reflexivity|reflexivity|reflexivity| |apply incl_refl|auto|discriminate].
      split; [exact P|]. split; [exact Em|]. split; [destruct P as (_ & _ & _ & _ & ? & ? & _); lia|].
      rewrite Z.add_0_r. exact R.
    + injection E as <-. apply Idle; reflexivity.
    + assert (NA : forall e, ~ In (bd_fileName b, e) told)
        by (intros e; apply (not_told told s b e I P); congruence).
      assert (S0 : exists f, p (bd_seqId b) = Some f /\ first_offset infos f (bd_offset b)).
      { destruct S as [S|(f & Hf & [S|(e & He & _)])]; [contradiction|eauto|exfalso; exact (NA e He)]. }
      assert (NoAlloc : forall j u b', j <> i -> nth_error (cs_thr s) j = Some u ->
                allocating (ct_op u) = Some b' -> bd_seqId b' <> bd_seqId b).
      { intros j u b' _ Hj Ab E'. pose proof (ti_thr _ _ I _ _ Hj) as O.
        destruct (ct_op u); cbn in Ab; try discriminate Ab; injection Ab as <-; cbn [top_ok] in O;
          destruct O as (_ & A & _); rewrite E' in A; congruence. }
      destruct (Z.eqb_spec (bd_alloc b) EXISTS_CORRECT_SIZE) as [Ec|_].
      { exfalso. destruct (tp_kind _ _ Hp _ _ (proj1 P)) as [K|[K|[[K _]|[K _]]]]; cbn in K;
          rewrite Ec in K; discriminate K. }
      destruct (Z.eqb_spec (bd_alloc b) NOT_EXISTS) as [En|Nn].
      * injection E as <-.
        apply (tinv_step told told s _ i (with_op t (OTrunc b)) (bd_seqId b) I); cbn;
          [reflexivity| | | | | |apply incl_refl|auto|].
        -- intros q. unfold mput. destruct (Z.eqb_spec q (bd_seqId b)) as [->|]; [right|left; reflexivity].
           split; [reflexivity|]. split; [congruence|exact NoAlloc].
        -- intros n v'. unfold dput. destruct (str_eqb n (bd_fileName b)) eqn:Eq.
           ++ intros _. right. apply str_eqb_eq in Eq. subst n. eexists.
              split; [exact (proj1 P)|]. split; [reflexivity|congruence].
           ++ intros Hv. left. exists v'. split; [exact Hv|lia].
        -- apply all_right_put; [apply (ti_right _ _ I)|]. intros x v H. exfalso. exact (rd_nil _ _ H).
        -- intros q f z v Hq Ha Hz. unfold dput. destruct (str_eqb (pl_name f) (bd_fileName b)) eqn:Eq.
           ++ apply str_eqb_eq in Eq. pose proof (plan_same b q f P Hq Eq). subst q.
              destruct (plan_of b f P Hq) as (_ & _ & Ea). rewrite Ea, En in Ha. discriminate Ha.
           ++ apply (ti_small _ _ I _ _ _ _ Hq Ha Hz).
        -- split; [exact P|]. split; [apply mput_same|exact S0].
        -- intros b1 Eb. injection Eb as <-. exact NoAlloc.
      * destruct (cs_disk s (bd_fileName b)) as [v|] eqn:Hv; injection E as <-.
        -- apply (tinv_step told told s _ i (with_op t (OTrunc b)) (bd_seqId b) I); cbn;
             [reflexivity| | |apply (ti_right _ _ I)|apply (ti_small _ _ I)| |apply incl_refl|auto|].
           ++ intros q. unfold mput. destruct (Z.eqb_spec q (bd_seqId b)) as [->|]; [right|left; reflexivity].
              split; [reflexivity|]. split; [congruence|exact NoAlloc].
           ++ intros n v' Hv'. left. exists v'. split; [exact Hv'|lia].
           ++ split; [exact P|]. split; [apply mput_same|exact S0].
           ++ intros b1 Eb. injection Eb as <-. exact NoAlloc.
        -- apply (tinv_step told told s _ i (with_op t OIdle) (bd_seqId b) I); cbn;
             [reflexivity| | |apply (ti_right _ _ I)|apply (ti_small _ _ I)|exact Logic.I|apply incl_refl|auto|discriminate].
           ++ intros q. unfold mput. destruct (Z.eqb_spec q (bd_seqId b)) as [->|]; [right|left; reflexivity].
              split; [reflexivity|]. split; [congruence|exact NoAlloc].
           ++ intros n v' Hv'. left. exists v'. split; [exact Hv'|lia].
Qed.

Lemma alloc_others told s i t b : tinv told s -> nth_error (cs_thr s) i = Some t ->
  allocating (ct_op t) = Some b -> forall j u b', j <> i -> nth_error (cs_thr s) j = Some u ->
  allocating (ct_op u) = Some b' -> bd_seqId b' <> bd_seqId b.
Proof.
  intros I Hi A j u b' N Hj A' E. apply N. eapply (ti_uniq _ _ I); eauto.
Qed.

Lemma tree_step_tinv told s l s' : tinv told s -> tree_careful c p infos told l s ->
  tree_step c l s = Some s' -> tinv (told_after l s told) s'.
Proof.
  intros I C E.
  assert (T : forall i (k : cthr -> option cstate),
    match nth_error (cs_thr s) i with Some t => k t | None => None end = Some s' ->
    exists t, nth_error (cs_thr s) i = Some t /\ k t = Some s').
  { intros i k H. destruct (nth_error (cs_thr s) i) as [t|]; [eauto|discriminate H]. }
  destruct l as [i b|i|i|i|i ts|i ts|i bs|i|i ts|i|i|]; cbn [tree_step cstep] in E.
  - apply T in E. destruct E as (t & Hi & E). destruct (ct_op t) eqn:Ho; try discriminate E.
    injection E as <-. cbn [told_after]. cbn [tree_careful] in C.
    apply (tinv_quiet told told s _ i (with_op t (OHeader b)) I); cbn;
      [reflexivity|reflexivity|reflexivity|exact C|apply incl_refl|auto|discriminate].
  - apply T in E. destruct E as (t & Hi & E). destruct (ct_op t) eqn:Ho; try discriminate E.
    exact (open_tinv told s i t b s' I Hi Ho E).
  - apply T in E. destruct E as (t & Hi & E). destruct (ct_op t) eqn:Ho; try discriminate E.
    injection E as <-. cbn [told_after].
    pose proof (ti_thr _ _ I _ _ Hi) as O. rewrite Ho in O. cbn [top_ok] in O. destruct O as (P & A & F).
    assert (Al : allocating (ct_op t) = Some b) by (rewrite Ho; reflexivity).
    apply (tinv_step told told s _ i (with_op t (OAlloc b)) (bd_seqId b) I); cbn;
      [reflexivity|auto| | | | |apply incl_refl|auto|].
    + intros n v' Hv'. destruct (list_eq_dec Z.eq_dec n (bd_fileName b)) as [->|N].
      * right. eexists. split; [exact (proj1 P)|]. split; [reflexivity|congruence].
      * left. rewrite on_file_other in Hv' by exact N. exists v'; split; [exact Hv'|lia].
    + intros n f x v Hf Hx. destruct (list_eq_dec Z.eq_dec n (bd_fileName b)) as [->|N].
      * rewrite on_file_same in Hf. destruct (cs_disk s (bd_fileName b)) as [f0|] eqn:Hd; [|discriminate Hf].
        injection Hf as <-. destruct (cut_cases (bd_fileSize b) f0) as [Ec|Ec]; rewrite Ec in Hx.
        -- exact (ti_right _ _ I _ _ _ _ Hd Hx).
        -- exfalso. exact (rd_nil _ _ Hx).
      * rewrite on_file_other in Hf by exact N. exact (ti_right _ _ I _ _ _ _ Hf Hx).
    + intros q f z v Hq Ha Hz Hv. destruct (list_eq_dec Z.eq_dec (pl_name f) (bd_fileName b)) as [En|N].
      * pose proof (plan_same b q f P Hq En). subst q. destruct (plan_of b f P Hq) as (_ & Ez & _).
        rewrite En, on_file_same in Hv. rewrite <- En in Hv.
        destruct (cs_disk s (pl_name f)) as [f0|] eqn:Hd; [|discriminate Hv].
        pose proof (ti_small _ _ I _ _ _ _ Hq Ha Hz Hd) as B. injection Hv as <-.
        rewrite cut_id by lia. exact B.
      * rewrite on_file_other in Hv by exact N. exact (ti_small _ _ I _ _ _ _ Hq Ha Hz Hv).
    + auto.
    + intros b1 Eb. injection Eb as <-. exact (alloc_others told s i t b I Hi Al).
  - apply T in E. destruct E as (t & Hi & E). destruct (ct_op t) eqn:Ho; try discriminate E.
    injection E as <-. cbn [told_after].
    pose proof (ti_thr _ _ I _ _ Hi) as O. rewrite Ho in O. cbn [top_ok] in O.
    assert (Al : allocating (ct_op t) = Some b) by (rewrite Ho; reflexivity).
    assert (Same : forall n, on_file (cs_disk s) (bd_fileName b) (grow_size c (bd_fileSize b)) n = cs_disk s n).
    { intros n. destruct (list_eq_dec Z.eq_dec n (bd_fileName b)) as [->|N].
      - rewrite on_file_same. destruct (cs_disk s (bd_fileName b)); [rewrite grow_same|]; reflexivity.
      - apply on_file_other, N. }
    apply (tinv_step told told s _ i (with_op t (OInval b)) (bd_seqId b) I); cbn;
      [reflexivity|auto| | | |exact O|apply incl_refl|auto|].
    + intros n v' Hv'. left. rewrite Same in Hv'. exists v'; split; [exact Hv'|lia].
    + intros n f x v. rewrite Same. apply (ti_right _ _ I).
    + intros q f z v Hq Ha Hz. rewrite Same. exact (ti_small _ _ I _ _ _ _ Hq Ha Hz).
    + intros b1 Eb. injection Eb as <-. exact (alloc_others told s i t b I Hi Al).
  - apply T in E. destruct E as (t & Hi & E). destruct (ct_op t) eqn:Ho; try discriminate E.
    injection E as <-. cbn [told_after].
    pose proof (ti_thr _ _ I _ _ Hi) as O. rewrite Ho in O. cbn [top_ok] in O.
    apply (tinv_quiet told told s _ i (with_op t (OCreate b)) I); cbn;
      [reflexivity|reflexivity|reflexivity|exact O|apply incl_refl|auto|].
    intros b1 Eb. injection Eb as <-. exists t, b. rewrite Ho. auto.
  - apply T in E. destruct E as (t & Hi & E). destruct (ct_op t) eqn:Ho; try discriminate E.
    injection E as <-. cbn [told_after].
    pose proof (ti_thr _ _ I _ _ Hi) as O. rewrite Ho in O. cbn [top_ok] in O. destruct O as (P & A & F).
    assert (Al : allocating (ct_op t) = Some b) by (rewrite Ho; reflexivity).
    apply (tinv_step told told s _ i (with_op t (OWrite b 0 true)) (bd_seqId b) I); cbn;
      [reflexivity| | |apply (ti_right _ _ I)|apply (ti_small _ _ I)| |apply incl_refl|auto|discriminate].
    + intros q. unfold mput. destruct (Z.eqb_spec q (bd_seqId b)) as [->|]; [right|left; reflexivity].
      split; [reflexivity|]. split; [congruence|]. exact (alloc_others told s i t b I Hi Al).
    + intros n v' Hv'. left. exists v'; split; [exact Hv'|lia].
    + split; [exact P|]. split; [apply mput_same|].
      split; [destruct P as (_ & _ & _ & _ & ? & ? & _); lia|]. rewrite Z.add_0_r.
      intros v Hv. destruct F as (f & Hf & S). destruct (plan_of b f P Hf) as (En & _ & _).
      destruct S as [[_ ->]|[Es S]]; [apply zlen_nonneg|]. rewrite <- En in Hv.
      exact (proj1 (ti_small _ _ I _ _ _ _ Hf Es (or_intror (conj Es S)) Hv)).
  - apply T in E. destruct E as (t & Hi & E). destruct (ct_op t) as [| | | | | |b n ok] eqn:Ho; try discriminate E.
    destruct (Z.leb_spec (n + zlen bs) (bd_dataSize b)) as [Hn|]; [|discriminate E].
    injection E as <-. cbn [told_after]. cbn [tree_careful] in C. specialize (C t b n ok Hi Ho).
    pose proof (ti_thr _ _ I _ _ Hi) as O. rewrite Ho in O. cbn [top_ok] in O. destruct O as (P & A & B & R).
    assert (Off : 0 <= bd_offset b + n) by (destruct P as (_ & _ & _ & _ & ? & _); lia).
    pose proof (zlen_nonneg bs).
    apply (tinv_step told told s _ i (with_op t (OWrite b (n + zlen bs)
             (ok && right_bytes (c_src c (bd_fileName b)) (bd_offset b + n) bs))) (bd_seqId b) I); cbn;
      [reflexivity|auto| | | | |apply incl_refl|auto|discriminate].
    + intros m v' Hv'. left. destruct (list_eq_dec Z.eq_dec m (bd_fileName b)) as [->|N].
      * rewrite on_file_same in Hv'. destruct (cs_disk s (bd_fileName b)) as [f0|]; [|discriminate Hv'].
        injection Hv' as <-. exists f0. split; [reflexivity|].
        destruct (put_longer f0 _ bs Off) as [[L _]|[_ ->]]; [exact L|lia].
      * rewrite on_file_other in Hv' by exact N. exists v'; split; [exact Hv'|lia].
    + intros m f x v Hf Hx. destruct (list_eq_dec Z.eq_dec m (bd_fileName b)) as [->|N].
      * rewrite on_file_same in Hf. destruct (cs_disk s (bd_fileName b)) as [f0|] eqn:Hd; [|discriminate Hf].
        injection Hf as <-. apply (right_put f0 (bd_fileName b) (bd_offset b + n) bs); auto.
        intros y w. exact (ti_right _ _ I _ _ _ _ Hd).
      * rewrite on_file_other in Hf by exact N. exact (ti_right _ _ I _ _ _ _ Hf Hx).
    + intros q f z v Hq Ha Hz Hv. destruct (list_eq_dec Z.eq_dec (pl_name f) (bd_fileName b)) as [En|N].
      * pose proof (plan_same b q f P Hq En). subst q. destruct (plan_of b f P Hq) as (_ & Ez & _).
        rewrite En, on_file_same in Hv. rewrite <- En in Hv.
        destruct (cs_disk s (pl_name f)) as [f0|] eqn:Hd; [|discriminate Hv].
        pose proof (ti_small _ _ I _ _ _ _ Hq Ha Hz Hd) as B0. injection Hv as <-.
        pose proof (put_len f0 (bd_offset b + n) bs Off).
        destruct P as (_ & _ & _ & _ & _ & _ & Pz & _).
        destruct (put_longer f0 _ bs Off) as [[L _]|[_ ->]]; lia.
      * rewrite on_file_other in Hv by exact N. exact (ti_small _ _ I _ _ _ _ Hq Ha Hz Hv).
    + split; [exact P|]. split; [exact A|]. split; [lia|]. intros v Hv. rewrite on_file_same in Hv.
      destruct (cs_disk s (bd_fileName b)) as [f0|] eqn:Hd; [|discriminate Hv]. injection Hv as <-.
      specialize (R f0 Hd). destruct (put_longer f0 _ bs Off) as [[_ L]|[-> ->]]; [lia|].
      change (zlen (@nil Z)) with 0. lia.
  - apply T in E. destruct E as (t & Hi & E). cbn [told_after]. rewrite Hi.
    destruct (ct_op t) as [| | | | | |b n ok] eqn:Ho; try discriminate E.
    destruct (n =? bd_dataSize b); [|discriminate E]. injection E as <-.
    pose proof (ti_thr _ _ I _ _ Hi) as O. rewrite Ho in O. cbn [top_ok] in O. destruct O as (P & A & B & R).
    apply (tinv_quiet told _ s _ i {| ct_op := OIdle; ct_wait := ct_wait t ++ [(b, ok)] |} I); cbn;
      [reflexivity|reflexivity|reflexivity|exact Logic.I|intros x Hx; right; exact Hx| |discriminate].
    intros m e [X|X]; [injection X as <- <-; right|left; exact X]. split; [exact R|].
    eexists _, _. split; [exact (proj1 P)|]. split; [reflexivity|exact A].
  - apply T in E. destruct E as (t & Hi & E). cbn [told_after].
    destruct (ct_wait t) as [|[b ok] r]; [discriminate E|].
    destruct (negb (c_verify c) || ok); [|discriminate E]. injection E as <-.
    apply (tinv_quiet told told s _ i {| ct_op := ct_op t; ct_wait := r |} I); cbn;
      [reflexivity|reflexivity|reflexivity|exact (ti_thr _ _ I _ _ Hi)|apply incl_refl|auto|].
    intros b1 Eb. exists t, b1. auto.
  - apply T in E. destruct E as (t & Hi & E). cbn [told_after]. injection E as <-.
    apply (tinv_quiet told told s _ i {| ct_op := ct_op t; ct_wait := [] |} I); cbn;
      [reflexivity|reflexivity|reflexivity|exact (ti_thr _ _ I _ _ Hi)|apply incl_refl|auto|].
    intros b1 Eb. exists t, b1. auto.
  - apply T in E. destruct E as (t & Hi & E). cbn [told_after]. rewrite Hi.
    assert (Fail : forall b, allocating (ct_op t) = Some b ->
              tinv told (set_thr (set_map s (bd_seqId b) AFailed) i (with_op t OIdle))).
    { intros b Al. pose proof (ti_thr _ _ I _ _ Hi) as O.
      assert (A : cs_map s (bd_seqId b) = Some AInProgress).
      { destruct (ct_op t); cbn in Al; try discriminate Al; injection Al as <-; cbn [top_ok] in O; apply O. }
      apply (tinv_step told told s _ i (with_op t OIdle) (bd_seqId b) I); cbn;
        [reflexivity| | |apply (ti_right _ _ I)|apply (ti_small _ _ I)|exact Logic.I|apply incl_refl|auto|discriminate].
      - intros q. unfold mput. destruct (Z.eqb_spec q (bd_seqId b)) as [->|]; [right|left; reflexivity].
        split; [reflexivity|]. split; [congruence|]. exact (alloc_others told s i t b I Hi Al).
      - intros n v' Hv'. left. exists v'; split; [exact Hv'|lia]. }
    destruct (ct_op t) as [|b|b|b|b|b|b n ok] eqn:Ho; injection E as <-;
      try (apply Fail; reflexivity).
    + apply (tinv_quiet told told s _ i (with_op t OIdle) I); cbn;
        [reflexivity|reflexivity|reflexivity|exact Logic.I|apply incl_refl|auto|discriminate].
    + apply (tinv_quiet told told s _ i (with_op t OIdle) I); cbn;
        [reflexivity|reflexivity|reflexivity|exact Logic.I|apply incl_refl|auto|discriminate].
    + pose proof (ti_thr _ _ I _ _ Hi) as O. rewrite Ho in O. cbn [top_ok] in O. destruct O as (P & A & B & R).
      apply (tinv_quiet told _ s _ i (with_op t OIdle) I); cbn;
        [reflexivity|reflexivity|reflexivity|exact Logic.I|intros x Hx; right; exact Hx| |discriminate].
      intros m e [X|X]; [injection X as <- <-; right|left; exact X]. split; [exact R|].
      eexists _, _. split; [exact (proj1 P)|]. split; [reflexivity|exact A].
  - injection E as <-. cbn [told_after]. destruct I as [I1 I2 I3 I4 I5]. constructor; assumption.
Qed.
End Inv.
