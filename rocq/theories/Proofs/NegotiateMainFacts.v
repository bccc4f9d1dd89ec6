(** What holds in every state the threads of a sender can reach. *)
From Coq Require Import Lia.
From Verif Require Import Spec.NegotiateSpec Proofs.QueueMonitorFacts Proofs.CountFacts Proofs.ThreadsCtlFacts Proofs.NegotiateFacts
  Proofs.NegotiateStepFacts Proofs.NegotiateReachFacts.
Open Scope Z_scope.

Ltac look G H := match type of H with nth_error (g_thr ?s) ?i = Some ?t =>
  let bs := fresh "bs" in let fs := fresh "fs" in let Hb := fresh "Hb" in let Hf := fresh "Hf" in let T := fresh "T" in
  destruct (ginv_bst _ _ _ s i t G H) as (bs & Hb); destruct (ginv_fst _ _ _ s i t G H) as (fs & Hf);
  pose proof (gi_thr _ _ _ s G i t bs fs H Hb Hf) as T; unfold tcoh in T
  end.

(** A thread that is out: what the rest looks like. *)
Lemma out_status cs n v s i bs fs : ginv cs n v s -> nth_error (b_st (g_bar s)) i = Some bs ->
  out (f_status (g_fun s)) (g_status s) False bs fs -> (bs = BOut /\ g_status s = VWait) \/ (f_status (g_fun s) = FEnd /\ g_status s = VResolved).
Proof.
  intros G Hb [[-> _]|(_ & _ & F & [S|[]])]; [left|right; auto]. split; [reflexivity|].
  pose proof (gi_glob _ _ _ s G) as X. unfold glob in X. rewrite (ginv_start _ _ _ s G (ginv_bout _ _ _ s i G Hb)) in X. apply X.
Qed.

Lemma int_none cs n v s : ginv cs n v s -> nint cs s None ->
  exists i t, nth_error (g_thr s) i = Some t /\ n_pc t = PWork WCollect /\ forall u, In u (g_thr s) -> n_neg u <= 0.
Proof.
  intros G S. remember (@None nsys) as r eqn:E. destruct S as [| |s i t H P D| | | |s i t H P A|s i t H P A| | | |s i t H P D| | | | | |s i t H P B A| | | | | |s i t w H P E1 L| | | | |];
    try discriminate E; clear E; look G H; rewrite P in T.
  - exfalso. assert (O : bs = BOut \/ bs = BPassed) by (destruct T as [[-> _]|[-> _]]; auto).
    destruct (bst_gone _ _ _ s i bs G Hb O) as (b & X & _). congruence.
  - destruct T as (_ & _ & X). congruence.
  - destruct T as (O & _). destruct (out_status _ _ _ _ _ _ _ G Hb O) as [[_ X]|[_ X]]; congruence.
  - exfalso. destruct T as (-> & _). destruct (bst_hit _ _ _ s i G Hb) as (b & X & _). congruence.
  - exfalso. destruct T as (_ & T). rewrite B in Hf. injection Hf as <-.
    assert (F : f_status (g_fun s) = FEnd) by (destruct T as [X|[[X _]|[[X _]|[X|[_ X]]]]]; congruence).
    pose proof (gi_glob _ _ _ s G) as X. unfold glob in X. rewrite F in X. destruct X as [[X _]|[X _]]; congruence.
  - exists i, t. split; [exact H|]. split; [exact P|]. intros u Iu. apply (pick_zero _ _ E1 L). now apply in_map.
Qed.

Lemma checks cs hon n v s : nreach cs hon n v s -> nint cs s None ->
  exists i t, nth_error (g_thr s) i = Some t /\ n_pc t = PWork WCollect /\ forall u, In u (g_thr s) -> n_neg u <= 0.
Proof. intros R. apply (int_none cs n v s (ginv_reach cs n v hon s R)). Qed.

(** With a receiver that follows the protocol somebody always has an offer. *)
Definition dealing (t : nthread) : Prop :=
  match n_pc t with PTop NMismatch | PEnter | PHit | PBarrier | PFunnel | PWork _ => True | _ => False end.
Definition backed (s : nsys) : Prop :=
  (g_abort s = VERSION_MISMATCH \/ exists t, In t (g_thr s) /\ dealing t) -> exists u, In u (g_thr s) /\ 0 < n_neg u.

Lemma in_set_old {A} (l : list A) i t t' u : nth_error l i = Some t -> In u l -> In u (set_nth l i t') \/ u = t.
Proof.
  revert i; induction l as [|a l IH]; intros [|i] H I; cbn in *; try tauto.
  - injection H as ->. destruct I as [->|I]; auto.
  - destruct I as [->|I]; [auto|]. destruct (IH i H I); auto.
Qed.
Lemma in_set_new {A} (l : list A) i t t' : nth_error l i = Some t -> In t' (set_nth l i t').
Proof. intros H. eapply nth_error_In. exact (nth_set_same l i t t' H). Qed.
(** An offer is kept. *)
Lemma backed_set s s' i t t' : nth_error (g_thr s) i = Some t -> g_thr s' = set_nth (g_thr s) i t' ->
  (0 < n_neg t -> 0 < n_neg t') ->
  ((g_abort s' = VERSION_MISMATCH \/ dealing t') -> g_abort s = VERSION_MISMATCH \/ dealing t \/ 0 < n_neg t') ->
  backed s -> backed s'.
Proof.
  intros H Ht Hn Hd B X.
  assert (Y : 0 < n_neg t' \/ (g_abort s = VERSION_MISMATCH \/ exists u, In u (g_thr s) /\ dealing u)).
  { destruct X as [X|(u & Iu & Du)].
    - destruct (Hd (or_introl X)) as [Y|[Y|Y]]; auto. right; right. exists t. split; [eapply nth_error_In; exact H|exact Y].
    - rewrite Ht in Iu. apply in_set in Iu. destruct Iu as [->|Iu]; [|eauto].
      destruct (Hd (or_intror Du)) as [Y|[Y|Y]]; auto. right; right. exists t. split; [eapply nth_error_In; exact H|exact Y]. }
  rewrite Ht. destruct Y as [Y|Y]; [exists t'; split; [eapply in_set_new; exact H|exact Y]|].
  destruct (B Y) as (u & Iu & Pu). destruct (in_set_old _ _ _ t' _ H Iu) as [J| ->]; [eauto|].
  exists t'. split; [eapply in_set_new; exact H|auto].
Qed.
Lemma backed_same s s' : g_thr s' = g_thr s -> (g_abort s' = VERSION_MISMATCH -> g_abort s = VERSION_MISMATCH) -> backed s -> backed s'.
Proof. intros Ht Ha B [X|X]; rewrite Ht in *; apply B; auto. Qed.

Lemma clear_abort a : do_abort_op a ClearAbort = VERSION_MISMATCH -> False.
Proof. cbn. destruct (Z.eqb_spec a VERSION_MISMATCH); cbn; [discriminate|congruence]. Qed.
Lemma other_abort a c : c <> VERSION_MISMATCH -> do_abort_op a (Abort c) <> VERSION_MISMATCH.
Proof. intros C. cbn. destruct (Z.eqb_spec c VERSION_MISMATCH); cbn [andb]; [congruence|exact C]. Qed.

Lemma backed_int cs s s' : backed s -> nint cs s (Some s') -> backed s'.
Proof.
  intros B S. remember (Some s') as r eqn:E. destruct S; try discriminate E; injection E as <-;
    try (eapply backed_same; [reflexivity|exact (fun X => X)|exact B]);
    (eapply (backed_set _ _ _ _ _ H); [reflexivity|exact (fun X => X)| |exact B]; unfold dealing; cbn; rewrite H0; try tauto).
  - destruct x; tauto.
Qed.
Lemma backed_next s s' : backed s -> next real_receiver s s' -> backed s'.
Proof.
  intros B S. destruct S as [s i t x a H P Nx|s i t H P A|s i t v H P (r & R1 & R2 & ->)|s i t v c H P C|s c C|s i H|s i H];
    try (eapply backed_same; [reflexivity|exact (fun X => X)|exact B]).
  - eapply (backed_set _ _ _ _ _ H); [reflexivity|exact (fun X => X)| |exact B]. unfold dealing. cbn. destruct x; tauto.
  - eapply (backed_set _ _ _ _ _ H); [reflexivity|exact (fun X => X)| |exact B]. cbn. tauto.
  - assert (N : negotiateProtocol (Z.min r (n_ver t)) (n_ver t) = Z.min r (n_ver t)) by (unfold negotiateProtocol; destruct (Z.ltb_spec (Z.min r (n_ver t)) 10); lia).
    eapply (backed_set _ _ _ _ _ H); [reflexivity| | |exact B]; unfold abort_cmd; rewrite N, !Z.eqb_refl; cbn [andb n_neg]; lia.
  - eapply (backed_set _ _ _ _ _ H); [reflexivity| | |exact B]; unfold abort_cmd;
      (replace (c =? VERSION_MISMATCH) with false by (symmetry; apply Z.eqb_neq, C)); cbn [andb at_pc_aborted n_neg n_pc dealing]; [auto|].
    intros [X|[]]. now destruct (other_abort _ _ C X).
  - apply (backed_same s); [reflexivity| |exact B]. intros X. now destruct (other_abort _ _ C X).
Qed.
Lemma backed_reach cs n v s : nreach cs real_receiver n v s -> backed s.
Proof.
  induction 1 as [|s s' R IH [S|(x & E & S)]].
  - intros [X|(t & I & D)]; [discriminate X|]. cbn in I. apply repeat_spec in I. subst t. destruct D.
  - exact (backed_int cs s s' IH S).
  - injection E as <-. exact (backed_next s s' IH S).
Qed.
Lemma no_crash cs n v s : nreach cs real_receiver n v s -> ~ nint cs s None.
Proof.
  intros R S. destruct (checks _ _ _ _ _ R S) as (i & t & H & P & A).
  destruct (backed_reach _ _ _ _ R) as (u & Iu & Pu).
  - right. exists t. split; [eapply nth_error_In; exact H|]. unfold dealing. now rewrite P.
  - specialize (A u Iu). lia.
Qed.

Lemma same_version cs hon n v s t : nreach cs hon n v s -> In t (g_thr s) -> talking t -> n_ver t = g_version s.
Proof.
  intros R I P. apply In_nth_error in I. destruct I as (i & H). pose proof (ginv_reach cs n v hon s R) as G.
  look G H. rewrite P in T. apply T.
Qed.

Lemma int_version cs n v s s' : ginv cs n v s -> nint cs s (Some s') -> g_version s' <> g_version s ->
  chosen v s' (g_version s') /\ g_version s = v /\ agreed s' (g_version s').
Proof.
  intros G S D. remember (Some s') as r eqn:E. destruct S; try discriminate E; injection E as <-; try now destruct D.
  look G H. rewrite H0 in T. destruct T as (_ & _ & (_ & V & Ch & Ag) & _). cbn. split; [exact Ch|]. split; [exact V|].
  intros u Iu Pu. cbn in Iu. apply in_set in Iu. destruct Iu as [->|Iu]; [|exact (Ag u Iu Pu)]. cbn in *.
  apply Ag; [eapply nth_error_In; exact H|exact Pu].
Qed.
Lemma next_version hon s s' : next hon s s' -> g_version s' = g_version s /\ g_status s' = g_status s.
Proof. destruct 1; cbn; auto. Qed.
Lemma step_offers cs hon s s' : nstep cs hon s (Some s') -> incl (g_offers s) (g_offers s').
Proof.
  intros [S|(x & E & S)].
  - remember (Some s') as r eqn:E. destruct S; try discriminate E; injection E as <-; apply incl_refl.
  - injection E as <-. destruct S; cbn; try apply incl_refl. apply incl_tl, incl_refl.
Qed.
Lemma version_from cs hon n v s : nreach cs hon n v s -> g_version s = v \/ (In (g_version s) (g_offers s) /\ 10 <= g_version s <= v).
Proof.
  induction 1 as [|s s' R IH S]; [left; reflexivity|]. pose proof (step_offers cs hon s s' S) as O.
  destruct (Z.eq_dec (g_version s') (g_version s)) as [E|E].
  - rewrite E. destruct IH as [IH|[I J]]; [left; exact IH|right; split; [apply O, I|exact J]].
  - destruct S as [S|(x & X & S)].
    + right. exact (proj1 (int_version cs n v s s' (ginv_reach _ _ _ _ _ R) S E)).
    + injection X as <-. destruct (next_version _ _ _ S). contradiction.
Qed.
Lemma unanimous cs hon n v s s' : nreach cs hon n v s -> nstep cs hon s (Some s') -> g_version s' <> g_version s ->
  g_version s = v /\ In (g_version s') (g_offers s') /\ forall t, In t (g_thr s') -> 0 < n_neg t -> n_neg t = g_version s'.
Proof.
  intros R [S|(x & X & S)] E.
  - destruct (int_version cs n v s s' (ginv_reach _ _ _ _ _ R) S E) as ([A _] & B & C). auto.
  - injection X as <-. destruct (next_version _ _ _ S). contradiction.
Qed.

Lemma settled_step cs hon n v s s' : ginv cs n v s -> settled s -> nstep cs hon s (Some s') ->
  settled s' /\ g_version s' = g_version s /\ g_status s' = g_status s.
Proof.
  unfold settled. intros G F [S|(x & X & S)].
  - assert (Q : f_status (g_fun s) <> FProgress) by congruence.
    remember (Some s') as r eqn:E. destruct S; try discriminate E; injection E as <-; cbn; auto;
      try (exfalso; exact (ginv_no_work _ _ _ _ _ _ _ G Q H H0)).
    split; [|auto]. unfold funnel_getStatus. rewrite F. exact F.
  - injection X as <-. destruct (next_version _ _ _ S) as (A & B). split; [|auto]. destruct S; cbn; auto.
Qed.
Lemma once cs hon n v s s' : nreach cs hon n v s -> settled s -> nsteps cs hon s s' ->
  settled s' /\ g_version s' = g_version s /\ g_status s' = g_status s.
Proof.
  intros R F S. induction S as [|s1 s2 s3 S SS IH]; [auto|].
  destruct (settled_step cs hon n v s1 s2 (ginv_reach _ _ _ _ _ R) F S) as (A & B & C).
  destruct (IH (NRS _ _ _ _ _ _ R S) A) as (A' & B' & C'). split; [exact A'|]. split; congruence.
Qed.

Lemma footer_right cs hon n v s t : nreach cs hon n v s -> In t (g_thr s) -> footer_for cs v = footer_for cs (g_version s) ->
  n_footer t = footer_for cs (g_version s).
Proof. intros R I E. destruct (gi_foot _ _ _ s (ginv_reach cs n v hon s R) t I) as [->| ->]; auto. Qed.

(** A thread that took part leaves only by an agreement. *)
Lemma settled_out cs n v s i t : ginv cs n v s -> settled s -> g_status s = VFailed -> nth_error (g_thr s) i = Some t ->
  ~ talking t /\ n_pc t <> PEnter /\ n_pc t <> PHit.
Proof.
  intros G F S H. look G H. assert (C : b_complete (g_bar s) = true) by (apply (gi_compl _ _ _ s G); rewrite F; discriminate).
  repeat split; intros P; rewrite P in T.
  - destruct T as (O & _). destruct (out_status _ _ _ _ _ _ _ G Hb O) as [[-> _]|[_ X]]; [|congruence]. rewrite (ginv_bout _ _ _ s i G Hb) in C. discriminate C.
  - destruct T as (O & _). destruct (out_status _ _ _ _ _ _ _ G Hb O) as [[-> _]|[_ X]]; [|congruence]. rewrite (ginv_bout _ _ _ s i G Hb) in C. discriminate C.
  - destruct T as (-> & _). rewrite (ginv_bout _ _ _ s i G Hb) in C. discriminate C.
Qed.
Lemma failed cs hon n v s t : nreach cs hon n v s -> settled s -> g_status s = VFailed -> In t (g_thr s) -> ~ talking t.
Proof. intros R F S I. apply In_nth_error in I. destruct I as (i & H). apply (settled_out cs n v s i t (ginv_reach _ _ _ _ _ R) F S H). Qed.
Lemma one_round cs hon n v s i t : nreach cs hon n v s -> settled s -> nth_error (g_thr s) i = Some t -> n_pc t <> PHit.
Proof.
  intros R F H P. pose proof (ginv_reach _ _ _ _ _ R) as G. look G H. rewrite P in T. destruct T as (-> & _).
  assert (C : b_complete (g_bar s) = true) by (apply (gi_compl _ _ _ s G); rewrite F; discriminate).
  rewrite (ginv_bout _ _ _ s i G Hb) in C. discriminate C.
Qed.
Lemma settled_how cs hon n v s : nreach cs hon n v s -> settled s ->
  (g_status s = VFailed /\ g_version s = v) \/ (g_status s = VResolved /\ In (g_version s) (g_offers s) /\ 10 <= g_version s <= v).
Proof. intros R F. pose proof (gi_glob _ _ _ s (ginv_reach _ _ _ _ _ R)) as X. unfold glob in X. rewrite F in X. exact X. Qed.

Lemma cleared cs hon n v s s' : nreach cs hon n v s -> nstep cs hon s (Some s') -> ~ settled s -> settled s' -> g_status s' = VResolved ->
  g_abort s' <> VERSION_MISMATCH.
Proof.
  unfold settled. intros R S F F' E. pose proof (ginv_reach _ _ _ _ _ R) as G. destruct S as [S|(x & X & S)].
  - remember (Some s') as r eqn:Er. destruct S; try discriminate Er; injection Er as <-; cbn in F'; try contradiction.
    + exfalso. unfold funnel_getStatus in F'. destruct (f_status (g_fun s)) eqn:X; cbn in F'; congruence.
    + look G H. rewrite H0 in T. destruct T as (_ & _ & W & _). cbn. destruct x; cbn in W; [apply W|destruct W|]. cbn in E. destruct W. congruence.
  - injection X as <-. destruct S; cbn in F'; contradiction.
Qed.
