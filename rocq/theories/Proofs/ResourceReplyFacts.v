(** What a release removes and what calls return. *)
From Coq Require Import Lia.
From Verif Require Export Proofs.ResourceFacts.
Import ListNotations.
Open Scope Z_scope.

Lemma release_kept w stale p id o :
  In (id, o) (po_map (fst (release w stale p))) <-> In (id, o) (po_map p) /\ ~ asked w stale id.
Proof.
  unfold release. cbn [fst po_map]. rewrite filter_In. cbn [fst].
  destruct w as [x| |]; cbn [asked].
  - destruct (Z.eqb_spec x id); cbn [negb]; intuition congruence.
  - cbn [negb]. intuition discriminate.
  - assert (X : existsb (Z.eqb id) stale = true <-> In id stale).
    { rewrite existsb_exists. split; [intros (y & A & B); apply Z.eqb_eq in B; subst; exact A|].
      intros A; exists id; rewrite Z.eqb_refl; auto. }
    destruct (existsb (Z.eqb id) stale); cbn [negb]; intuition discriminate.
Qed.

Lemma released s i c k sd j w ch s' nc :
  nth_error (ry_threads s) i = Some (RBusy c k (ORelease2 sd j w)) -> ry_step s (EvStep i ch) = Some s' ->
  nth_error (rs_heap (ry_share s)) j = Some nc ->
  exists nc', rs_heap (ry_share s') = set_nth (rs_heap (ry_share s)) j nc' /\
    (forall id o, In (id, o) (po_map (pool_of sd nc')) <->
       In (id, o) (po_map (pool_of sd nc)) /\ ~ asked w (rc_stale ch) id) /\
    forall sd', sd' <> sd -> pool_of sd' nc' = pool_of sd' nc.
Proof.
  intros Et E En. unfold ry_step in E. destruct (rs_crash (ry_share s)); [discriminate E|].
  rewrite Et in E. cbn [op_step] in E. rewrite En in E.
  pose proof (release_kept w (rc_stale ch) (pool_of sd nc)) as K.
  destruct (release w (rc_stale ch) (pool_of sd nc)) as [p n]. cbn [fst] in K.
  assert (H : rs_heap (ry_share s') = rs_heap (set_pool sd j (ry_share s) p)).
  { destruct (n >? 0).
    - injection E as <-. reflexivity.
    - destruct (resume _ _ _ _) as [[k' o']|code']; injection E as <-; reflexivity. }
  exists (with_pool sd nc p). rewrite H, (set_pool_heap _ _ _ _ _ En).
  split; [reflexivity|]. split.
  - intros id o. rewrite <- K. unfold with_pool, pool_of. cbn [nc_pools]. destruct sd; reflexivity.
  - intros sd' D. unfold with_pool, pool_of. cbn [nc_pools]. destruct sd, sd'; try reflexivity; destruct D; reflexivity.
Qed.

Lemma resume_says objs k code obj c' : resume objs k code obj = inr c' -> says k c'.
Proof.
  destruct k; cbn [resume says]; try (intros; exact I); try discriminate; try (intros E; injection E as <-; reflexivity).
  - destruct (Z.eqb_spec code OK); [discriminate|]. intros E; injection E as <-. assumption.
  - destruct (Z.eqb_spec code OK); [discriminate|]. intros E; injection E as <-. assumption.
  - destruct obj; [discriminate|]. intros E; injection E as <-. reflexivity.
Qed.
Lemma says_step s e s' : (forall c k code, In (c, k, code) (ry_log s) -> says k code) ->
  ry_step s e = Some s' -> forall c k code, In (c, k, code) (ry_log s') -> says k code.
Proof.
  intros H E. unfold ry_step in E. destruct (rs_crash (ry_share s)); [discriminate E|].
  destruct e as [i c|i ch].
  - destruct (nth_error (ry_threads s) i) as [[|]|]; try discriminate E.
    destruct (begin c). injection E as <-. exact H.
  - destruct (nth_error (ry_threads s) i) as [[|c k o]|]; try discriminate E.
    destruct (op_step _ _ _ _ _) as [[sh [o'|code obj]]|]; try discriminate E.
    + injection E as <-. exact H.
    + destruct (resume (rs_objs sh) k code obj) as [[k' o']|code'] eqn:R; injection E as <-; [exact H|].
      intros c1 k1 code1. cbn [ry_log]. rewrite in_app_iff. intros [A|[A|[]]]; [eapply H, A|].
      injection A as <- <- <-. eapply resume_says, R.
Qed.
Lemma calls_say max nsmax n evs s c k code : ry_run evs (ry_init max nsmax n) = Some s ->
  In (c, k, code) (ry_log s) -> says k code.
Proof.
  intros E. revert c k code.
  refine (run_inv (fun s => forall c k code, In (c, k, code) (ry_log s) -> says k code) _ evs _ s _ E).
  - intros s0 e s1 H E1. eapply says_step; eassumption.
  - intros c k code [].
Qed.
