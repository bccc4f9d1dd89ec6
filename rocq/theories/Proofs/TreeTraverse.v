(** What the traversal of the destination reports, and what the sender makes of it. *)
From Verif Require Export Spec.TreeResumeSpec.
From Verif Require Import Proofs.ExploreFacts Proofs.SourceQueueFacts.
From Coq Require Import Lia.
Open Scope Z_scope.

Definition whole_file (fc : file_chunks) : Prop :=
  fc_chunks fc = [{| iv_start := 0; iv_end := fc_fileSize fc |}] /\ 0 <= fc_fileSize fc.

Fixpoint numbered (k : Z) (fs : list (list Z * Z)) : list source :=
  match fs with
  | [] => []
  | (n, z) :: r => mkSource n z k NOT_EXISTS 0 (0, z) :: numbered (k + 1) r
  end.

Lemma found_numbered fs : forall q q', q_prev q = [] -> q_blockSizeMb q = 0 ->
  create_found q fs = Ret (Some q') ->
  Forall (fun f => 0 <= snd f) fs /\
  q_prev q' = [] /\ q_files q' = q_files q ++ fs /\ q_queue q' = q_queue q ++ numbered (q_next q) fs.
Proof.
  induction fs as [|[n z] fs IH]; intros q q' P B C; cbn [create_found] in C.
  - injection C as <-. cbn. rewrite !app_nil_r. auto.
  - unfold createIntoQueue, createIntoQueueInternal in C.
    cbn [add_file q_blockSizeMb q_prev q_next] in C. rewrite P, B in C.
    unfold planFor in C. cbn [find_prev obind] in C. unfold mkInterval in C.
    destruct (Z.ltb_spec z 0) as [|Hz]; cbn [obind] in C; [discriminate C|].
    assert (K : cut_all (blockSizeFor 0 z) [{| iv_start := 0; iv_end := z |}] = Some [(0, z)]).
    { unfold blockSizeFor. cbn [Z.mul Z.ltb Z.compare cut_all iv_end iv_start].
      rewrite Z.sub_0_r. destruct (cut_fuel z z) eqn:Ef; cbn [cut];
        rewrite Z.min_id, Z.sub_diag; reflexivity. }
    rewrite K in C. cbn [obind map] in C.
    apply IH in C; [|exact P|exact B]. destruct C as (F & H1 & H2 & H3).
    split; [constructor; [exact Hz|exact F]|]. split; [exact H1|].
    cbn [push_blocks add_file q_files q_queue q_next] in H2, H3.
    rewrite H2, H3, <- !app_assoc. cbn [app]. split; reflexivity.
Qed.

Lemma numbered_names fs : forall k, map s_name (numbered k fs) = map fst fs.
Proof. induction fs as [|[n z] fs IH]; intros k; cbn; [reflexivity|rewrite IH; reflexivity]. Qed.
Lemma seq_of_range name fs : forall k, In name (map fst fs) -> k <= seq_of name (numbered k fs).
Proof.
  unfold seq_of. induction fs as [|[n z] fs IH]; intros k; cbn; [intros []|].
  destruct (str_eqb n name) eqn:E; [intros _; cbn; lia|].
  intros [->|H]; [rewrite str_eqb_refl in E; discriminate E|]. specialize (IH (k + 1) H); lia.
Qed.
Lemma seq_of_inj fs : forall k a b, In a (map fst fs) -> In b (map fst fs) ->
  seq_of a (numbered k fs) = seq_of b (numbered k fs) -> a = b.
Proof.
  induction fs as [|[n z] fs IH]; intros k a b; cbn [map]; [intros []|].
  unfold seq_of; cbn [numbered find]; cbn [s_name mkSource].
  destruct (str_eqb n a) eqn:Ea, (str_eqb n b) eqn:Eb; cbn [s_seqId mkSource].
  - apply str_eqb_eq in Ea, Eb. congruence.
  - intros _ [Hb|Hb] E; [cbn in Hb; subst; rewrite str_eqb_refl in Eb; discriminate Eb|].
    pose proof (seq_of_range b fs (k + 1) Hb) as R; unfold seq_of in R; lia.
  - intros [Ha|Ha] _ E; [cbn in Ha; subst; rewrite str_eqb_refl in Ea; discriminate Ea|].
    pose proof (seq_of_range a fs (k + 1) Ha) as R; unfold seq_of in R; lia.
  - intros [Ha|Ha] [Hb|Hb] E;
      try (cbn in Ha; subst; rewrite str_eqb_refl in Ea; discriminate Ea);
      try (cbn in Hb; subst; rewrite str_eqb_refl in Eb; discriminate Eb).
    exact (IH (k + 1) a b Ha Hb E).
Qed.

Definition log_name (n : list Z) : Prop := n = wdt_log \/ n = wdt_bug.
Lemma tree_infos_spec q fs : forall l, tree_infos q fs = Ret l ->
  Forall whole_file l /\ Forall (fun i => fc_seqId i = seq_of (fc_fileName i) q) l /\
  (forall n z, (exists i, In i l /\ fc_fileName i = n /\ fc_fileSize i = z) <->
     In (n, z) fs /\ ~ log_name n) /\
  (NoDup (map fst fs) -> NoDup (map fc_fileName l)).
Proof.
  induction fs as [|[n z] fs IH]; intros l; cbn [tree_infos].
  - intros E; injection E as <-. repeat split; try constructor.
    + destruct H as (i & [] & _).
    + destruct H as (i & [] & _).
    + intros [[] _].
  - destruct (str_eqb n wdt_log || str_eqb n wdt_bug) eqn:L.
    + intros E. destruct (IH l E) as (A & B & C & D). split; [exact A|]. split; [exact B|].
      apply orb_true_iff in L. rewrite !str_eqb_eq in L. split.
      * intros n' z'. rewrite C. cbn [In]. split; intros [H H']; [auto|].
        destruct H as [H|H]; [injection H as <- <-; exfalso; apply H'; exact L|auto].
      * intros ND. cbn in ND. inversion ND; auto.
    + unfold mkInterval. destruct (Z.ltb_spec z 0) as [|Hz]; cbn [obind]; [discriminate|].
      destruct (tree_infos q fs) as [l'| |]; cbn [obind]; try discriminate.
      intros E; injection E as <-. destruct (IH l' eq_refl) as (A & B & C & D).
      apply orb_false_iff in L. rewrite !str_eqb_neq in L.
      split; [constructor; [split; [reflexivity|exact Hz]|exact A]|].
      split; [constructor; [reflexivity|exact B]|]. split.
      * intros n' z'. cbn [In]. split.
        -- intros (i & [<-|Hi] & En & Ez).
           ++ cbn in En, Ez; subst. split; [left; reflexivity|]. intros [H|H]; tauto.
           ++ destruct (proj1 (C n' z')) as [H H']; [exists i; auto|]. auto.
        -- intros [[H|H] H'].
           ++ injection H as <- <-. eexists. split; [left; reflexivity|split; reflexivity].
           ++ destruct (proj2 (C n' z') (conj H H')) as (i & Hi & Ei). exists i; split; [right; exact Hi|exact Ei].
      * cbn. intros ND. inversion ND as [|? ? N1 N2]; subst. constructor; [|exact (D N2)].
        intros H. apply in_map_iff in H. destruct H as (i & Ei & Hi).
        destruct (proj1 (C n (fc_fileSize i))) as [H _]; [exists i; auto|].
        apply N1. apply in_map_iff. exists (n, fc_fileSize i). auto.
Qed.

Lemma traversal_queue fuel root E l : traverseDestinationDir fuel root E = Ret (Some l) ->
  exists s, explore fuel (tree_xopts root) E = Ret s /\
    tree_infos (numbered 1 (xs_files s)) (xs_files s) = Ret l.
Proof.
  unfold traverseDestinationDir, buildQueue.
  destruct (explore fuel (tree_xopts root) E) as [s| |]; cbn [obind]; try discriminate.
  destruct (create_found (dq_init 0 false) (xs_files s)) as [[q|]| |] eqn:C; cbn [obind]; try discriminate.
  apply found_numbered in C; [|reflexivity|reflexivity]. destruct C as (_ & P & F & Q).
  cbn [dq_init q_files q_queue q_next app] in F, Q.
  assert (FI : q_queue (finishInit q) = q_queue q /\ q_files (finishInit q) = q_files q).
  { unfold finishInit, enqueueFilesToBeDeleted. cbn. rewrite P. destruct (negb (q_delete q)); auto. }
  destruct FI as [-> ->]. rewrite F, Q.
  destruct (tree_infos _ _) as [l'| |] eqn:T; cbn [obind]; try discriminate.
  intros X; injection X as <-. exists s. auto.
Qed.

(** C58: sound, whatever the file system answers. *)
Lemma traversal_sound fuel root E l : traverseDestinationDir fuel root E = Ret (Some l) ->
  Forall whole_file l /\
  forall i, In i l -> wanted (tree_xopts root) E (fc_fileName i) (fc_fileSize i) /\
    ~ log_name (fc_fileName i).
Proof.
  intros T. apply traversal_queue in T. destruct T as (s & X & T).
  apply tree_infos_spec in T. destruct T as (A & _ & C & _). split; [exact A|].
  intros i Hi. destruct (proj1 (C (fc_fileName i) (fc_fileSize i))) as [H H']; [exists i; auto|].
  split; [|exact H']. exact (explore_sound _ _ _ _ X _ _ H).
Qed.
Lemma traversal_exact fuel root E l : names_ok E -> types_agree (tree_xopts root) E ->
  (forall k, xe_abort E k = false) -> traverseDestinationDir fuel root E = Ret (Some l) ->
  NoDup (map fc_fileName l) /\ NoDup (map fc_seqId l) /\
  forall name size,
    (exists i, In i l /\ fc_fileName i = name /\ fc_fileSize i = size /\ 1 <= fc_seqId i /\
       fc_chunks i = [{| iv_start := 0; iv_end := size |}]) <->
    wanted (tree_xopts root) E name size /\ name <> wdt_log /\ name <> wdt_bug.
Proof.
  intros NM TA AB T. apply traversal_queue in T. destruct T as (s & X & T).
  apply tree_infos_spec in T. destruct T as (A & B & C & D).
  pose proof (explore_once _ _ _ _ NM X) as ND.
  rewrite Forall_forall in A, B. split; [exact (D ND)|].
  assert (IN : forall i, In i l -> In (fc_fileName i) (map fst (xs_files s))).
  { intros i Hi. destruct (proj1 (C (fc_fileName i) (fc_fileSize i))) as [H _]; [exists i; auto|].
    apply in_map_iff. exists (fc_fileName i, fc_fileSize i). auto. }
  split.
  - specialize (D ND). clear C. revert D A B IN. clear. induction l as [|i l IH]; intros D A B IN; cbn; [constructor|].
    cbn in D. inversion D as [|? ? D1 D2]; subst. constructor.
    + intros H. apply in_map_iff in H. destruct H as (j & Ej & Hj).
      rewrite (B i (or_introl eq_refl)), (B j (or_intror Hj)) in Ej.
      apply seq_of_inj in Ej; [|apply IN; right; exact Hj|apply IN; left; reflexivity].
      apply D1. rewrite <- Ej. apply in_map. exact Hj.
    + apply IH; auto; intros j Hj; [apply A|apply B|apply IN]; right; exact Hj.
  - intros name size. split.
    + intros (i & Hi & En & Ez & _ & _). destruct (proj1 (C name size)) as [H H']; [exists i; auto|].
      split; [exact (explore_sound _ _ _ _ X _ _ H)|]. split; intros ->; apply H'; [left|right]; reflexivity.
    + intros (W & N1 & N2).
      pose proof (explore_complete _ _ _ _ TA AB X (or_intror eq_refl) _ _ W) as H.
      destruct (proj2 (C name size)) as (i & Hi & En & Ez).
      { split; [exact H|]. intros [?|?]; tauto. }
      exists i. split; [exact Hi|]. split; [exact En|]. split; [exact Ez|]. split.
      * rewrite (B i Hi). apply seq_of_range, IN, Hi.
      * destruct (A i Hi) as [-> _]. rewrite Ez. reflexivity.
Qed.

(** What the sender does with such a report. *)
Lemma tree_planned infos name size : Forall whole_file infos -> NoDup (map fc_fileName infos) ->
  ((forall i, In i infos -> fc_fileName i <> name) ->
     planFor infos name size = Ret (PlanNew NOT_EXISTS 0)) /\
  (forall i, In i infos -> fc_fileName i = name ->
     (size < fc_fileSize i -> planFor infos name size = Ret (PlanNew EXISTS_TOO_LARGE (fc_seqId i))) /\
     (size = fc_fileSize i -> planFor infos name size = Ret (PlanDone size)) /\
     (fc_fileSize i < size -> planFor infos name size =
        Ret (PlanContinue (fc_fileSize i) (fc_seqId i) EXISTS_TOO_SMALL
               [{| iv_start := fc_fileSize i; iv_end := size |}]))).
Proof.
  intros W ND. split.
  - intros H. unfold planFor. rewrite (proj2 (find_prev_none name infos) H). reflexivity.
  - intros i Hi En. unfold planFor. rewrite (proj2 (find_prev_unique name infos i ND) (conj Hi En)).
    rewrite Forall_forall in W. destruct (W i Hi) as [Ec Hz]. rewrite Ec.
    unfold getRemainingChunks; cbn [remaining_loop iv_start iv_end].
    change (0 <? 0) with false; cbv iota.
    assert (T : getTotalChunkSize [{| iv_start := 0; iv_end := fc_fileSize i |}] = fc_fileSize i) by (cbn; lia).
    split; [|split]; intros H.
    + destruct (Z.ltb_spec size (fc_fileSize i)); [reflexivity|lia].
    + subst size. rewrite Z.ltb_irrefl. cbn [obind]. rewrite T. reflexivity.
    + destruct (Z.ltb_spec size (fc_fileSize i)); [lia|]. destruct (Z.ltb_spec (fc_fileSize i) size); [|lia].
      unfold mkInterval. destruct (Z.ltb_spec size (fc_fileSize i)); [lia|]. cbn [obind]. rewrite T. reflexivity.
Qed.
