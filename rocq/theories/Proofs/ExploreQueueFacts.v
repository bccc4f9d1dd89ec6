(** What discovery puts into the queue, for C56. *)
From Verif Require Export Proofs.ExploreFacts Spec.QueueSpec.
From Verif Require Import Proofs.SourceQueueFacts Proofs.QueueWorldFacts.
From Coq Require Import Lia.
Open Scope Z_scope.

Lemma appended_app l bs : l ++ appended l (l ++ bs) = l ++ bs.
Proof. unfold appended. rewrite skipn_app, skipn_all, Nat.sub_diag. reflexivity. Qed.

Lemma found_reach mb del : forall fs w q', qreach mb del w -> q_initFinished (w_q w) = false ->
  q_prev (w_q w) = [] -> w_live w = q_queue (w_q w) -> Forall (fun f => 0 <= snd f) fs ->
  create_found (w_q w) fs = Ret (Some q') ->
  exists w', qreach mb del w' /\ w_q w' = q' /\ w_discovered w' = w_discovered w ++ fs /\
    q_initFinished q' = false /\ q_prev q' = [] /\ w_live w' = q_queue q'.
Proof.
  induction fs as [|f fs IH]; intros w q' R I P L Sz C; cbn in C.
  - injection C as <-. exists w. rewrite app_nil_r. auto 10.
  - destruct (createIntoQueue (w_q w) f) as [[q1|]| |] eqn:C1; cbn in C; try discriminate C.
    inversion Sz as [|? ? S1 S2]; subst.
    destruct (create_group (add_file (w_q w) f) f q1 (q_next (add_file (w_q w) f))) as (bs & id & Q & U & _).
    + cbn. rewrite P. constructor.
    + exact S1.
    + lia.
    + exact C1.
    + pose proof (QDiscover w f q1 I S1 C1) as St.
      pose proof (QRS _ _ _ _ R St) as R'.
      destruct (IH _ q' R') as (w' & A & B & D & F & G & H).
      * cbn. rewrite (u_init _ _ U). exact I.
      * cbn. rewrite (u_prev _ _ U). exact P.
      * cbn. rewrite L. cbn in Q. rewrite Q. apply appended_app.
      * exact S2.
      * exact C.
      * exists w'. cbn in D. rewrite <- app_assoc in D. auto 10.
Qed.

Theorem queued fuel o E mb del q s : names_ok E ->
  (forall p k z, xe_lstat E p = Some (k, z) \/ xe_stat E p = Some (k, z) -> 0 <= z) ->
  buildQueue fuel o E (dq_init mb del) = Ret (Some (q, s)) ->
  explore fuel o E = Ret s /\
  (exists w, qreach mb del w /\ w_q w = q /\ w_discovered w = xs_files s) /\
  (forall rel size, In (rel, size) (xs_files s) -> exact_blocks [] mb rel size (blocks_named rel (q_queue q))).
Proof.
  intros NM Sz R. unfold buildQueue in R.
  destruct (explore fuel o E) as [s0| |] eqn:X; cbn [obind] in R; try discriminate R.
  destruct (create_found (dq_init mb del) (xs_files s0)) as [[q1|]| |] eqn:C; cbn [obind] in R; try discriminate R.
  injection R as <- <-. split; [reflexivity|].
  assert (Pos : Forall (fun f => 0 <= snd f) (xs_files s0)).
  { apply Forall_forall. intros [rel size] I.
    destruct (explore_sound _ _ _ _ X rel size I) as (dir & d & _ & _ & _ & [L|(_ & _ & L)] & _); cbn; eauto. }
  destruct (found_reach mb del (xs_files s0) (qworld_init mb del) q1 (QR0 mb del) eq_refl eq_refl eq_refl Pos C)
    as (w & A & B & D & F & G & H).
  cbn in D.
  assert (FI : q_queue (finishInit q1) = q_queue q1).
  { unfold finishInit, enqueueFilesToBeDeleted. cbn. rewrite G. destruct (negb (q_delete q1)); reflexivity. }
  split.
  - subst q1. eexists. split; [exact (QRS _ _ _ _ A (QInitFinished w F))|]. split; [reflexivity|exact D].
  - intros rel size I. rewrite FI, <- H. rewrite <- D in I.
    assert (EX := reach_exact mb del w rel size A).
    rewrite B, G in EX. apply EX; [|exact I|].
    + rewrite D. exact (explore_once _ _ _ _ NM X).
    + intros f (J & _). destruct J.
Qed.
