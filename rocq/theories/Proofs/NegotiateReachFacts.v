(** What comes from outside keeps the invariant too; which checks can fail. *)
From Coq Require Import Lia.
From Verif Require Import Spec.NegotiateSpec Proofs.QueueMonitorFacts Proofs.CountFacts Proofs.ThreadsCtlFacts Proofs.NegotiateFacts Proofs.NegotiateStepFacts.
Open Scope Z_scope.

Lemma negotiate_supported v c : 0 < v -> negotiateProtocol v c = v -> 10 <= v <= c.
Proof. unfold negotiateProtocol. destruct (Z.ltb_spec v 10); lia. Qed.

Section I.
Variable (cs : bool) (n : nat) (v0 : Z).
Notation ginv := (ginv cs n v0).

Ltac look G H := match type of H with nth_error (g_thr ?s) ?i = Some ?t =>
  let bs := fresh "bs" in let fs := fresh "fs" in let Hb := fresh "Hb" in let Hf := fresh "Hf" in let T := fresh "T" in
  destruct (ginv_bst _ _ _ s i t G H) as (bs & Hb); destruct (ginv_fst _ _ _ s i t G H) as (fs & Hf);
  pose proof (gi_thr _ _ _ s G i t bs fs H Hb Hf) as T; unfold tcoh in T
  end.

Lemma ginv_busy s s' i t t' : ginv s -> nth_error (g_thr s) i = Some t -> n_pc t = PBusy ->
  g_thr s' = set_nth (g_thr s) i t' -> n_ver t' = n_ver t -> n_footer t' = n_footer t ->
  g_status s' = g_status s -> g_version s' = g_version s -> g_bar s' = g_bar s -> g_fun s' = g_fun s ->
  incl (g_offers s) (g_offers s') -> (0 < n_neg t' -> chosen v0 s' (n_neg t')) ->
  (n_pc t' = PTop NOther \/ (n_pc t' = PTop NMismatch /\ n_abort t' = true) \/ n_pc t' = PTop NEnd) -> ginv s'.
Proof.
  intros G H P Ht Hv Hft Hs HV Hb Hf Ho Hn Hp. look G H. rewrite P in T. destruct T as (O & Ev).
  assert (Q : f_status (g_fun s) <> FProgress) by (eapply ginv_out_quiet; eauto).
  constructor; rewrite ?Hf, ?Hb.
  - rewrite Ht, set_nth_length. apply (gi_len _ _ _ s G).
  - apply (gi_flen _ _ _ s G).
  - apply (gi_bar _ _ _ s G).
  - apply (gi_fun _ _ _ s G).
  - apply (gi_compl _ _ _ s G).
  - pose proof (gi_glob _ _ _ s G) as X. unfold glob, chosen in *. rewrite Hf, Hs, HV.
    destruct (f_status (g_fun s)); auto. destruct X as [X|[X [Y Z]]]; [left; exact X|right; auto].
  - rewrite HV. apply (gi_low _ _ _ s G).
  - intros u Iu Pu. rewrite Ht in Iu. apply in_set in Iu. destruct Iu as [->|Iu]; [exact (Hn Pu)|].
    destruct (gi_neg _ _ _ s G u Iu Pu) as [X Y]. split; [apply Ho, X|exact Y].
  - intros u Iu. rewrite Ht in Iu. apply in_set in Iu. unfold foot. rewrite HV. destruct Iu as [->|Iu]; [rewrite Hft; exact (foot_in cs n v0 _ _ _ G H)|].
    exact (gi_foot _ _ _ s G u Iu).
  - intros j u bs' fs' Hu Hbs Hfs. rewrite Hs, HV. rewrite Ht in Hu. apply nth_set in Hu. destruct Hu as [[<- ->]|[N Hu]].
    + rewrite Hb0 in Hbs. injection Hbs as <-. rewrite Hf0 in Hfs. injection Hfs as <-. unfold tcoh.
      destruct Hp as [->|[[-> A]| ->]]; (split; [eapply out_fin; [|exact O]; now intros []|]).
      * split; [intros _; congruence|discriminate].
      * split; [intros _; congruence|intros _; exact A].
      * split; [now intros []|discriminate].
    + eapply tcoh_w; [exact (gi_thr _ _ _ s G j u bs' fs' Hu Hbs Hfs)|]. intros k Pk. exfalso.
      exact (ginv_no_work cs n v0 s j u k G Q Hu Pk).
Qed.

Lemma ginv_abort s a : ginv s -> a <> VERSION_MISMATCH -> ginv (g_set_abort s a).
Proof.
  intros G A. destruct G as [g1 g2 g3 g4 g5 g6 g7 g8 g9 g10]. constructor; [exact g1|exact g2|exact g3|exact g4|exact g5|exact g6|exact g7|exact g8|exact g9|].
  intros i t bs fs Ht Hb Hf. cbn [g_thr g_set_abort g_bar g_fun g_status g_version] in *. eapply tcoh_w; [exact (g10 i t bs fs Ht Hb Hf)|].
  intros k _. unfold wk. cbn. destruct k as [| |v| | |[| |]]; auto. intros (X & Y & Z & _). auto.
Qed.

Lemma ginv_bar_up s i : ginv s -> nth_error (b_st (g_bar s)) i = Some BAsleep -> ginv (g_set_bar s (b_set (g_bar s) i BWoken)).
Proof.
  intros G H. constructor; cbn [g_thr g_fun g_bar g_set_bar g_status g_version g_offers g_abort]; try apply G.
  - destruct (binv_step n _ _ (gi_bar _ _ _ s G) (BS_spurious _ i H)) as (b & E & B). injection E as <-. exact B.
  - intros j t bs fs Ht Hb Hf. cbn [b_st b_set] in Hb. apply nth_set in Hb. destruct Hb as [[<- ->]|[N Hb]].
    + pose proof (gi_thr _ _ _ s G i t _ _ Ht H Hf) as T. exact (tcoh_bw _ _ _ _ _ _ _ T).
    + exact (gi_thr _ _ _ s G j t bs fs Ht Hb Hf).
Qed.
Lemma ginv_fun_up s i : ginv s -> nth_error (f_st (g_fun s)) i = Some FAsleep -> ginv (g_set_fun s (f_set (g_fun s) i FWoken)).
Proof.
  intros G H. constructor; cbn [g_thr g_fun g_bar g_set_fun g_status g_version g_offers g_abort]; try apply G.
  - cbn. rewrite set_nth_length. apply (gi_flen _ _ _ s G).
  - eapply finv_step; [apply (gi_fun _ _ _ s G)|]. right. constructor. exact H.
  - intros j t bs fs Ht Hb Hf. cbn [f_st f_set f_status] in *. apply nth_set in Hf. destruct Hf as [[<- ->]|[N Hf]].
    + pose proof (gi_thr _ _ _ s G i t _ _ Ht Hb H) as T. unfold tcoh, out in *. destruct (n_pc t);
      repeat match goal with H : _ /\ _ |- _ => destruct H | H : _ \/ _ |- _ => destruct H end; try discriminate; try congruence; auto 8.
    + exact (gi_thr _ _ _ s G j t bs fs Ht Hb Hf).
Qed.

Lemma ginv_next hon s s' : ginv s -> next hon s s' -> ginv s'.
Proof.
  intros G X. destruct X as [s i t x a H P Nx|s i t H P A|s i t v H P Hon|s i t v c H P C|s c C|s i H|s i H].
  - eapply (ginv_busy s _ i t _ G H P); try reflexivity; [apply incl_refl| |].
    + intros Pn. apply (gi_neg _ _ _ s G t); [eapply nth_error_In; exact H|exact Pn].
    + cbn. destruct x; auto. now destruct Nx.
  - eapply (ginv_busy s _ i t _ G H P); try reflexivity; [apply incl_refl| |].
    + intros Pn. apply (gi_neg _ _ _ s G t); [eapply nth_error_In; exact H|exact Pn].
    + cbn. auto.
  - look G H. rewrite P in T. destruct T as (_ & Ev). pose proof (gi_low _ _ _ s G) as L.
    eapply (ginv_busy s _ i t (abort_cmd t v VERSION_MISMATCH) G H P); try reflexivity; unfold abort_cmd; rewrite Z.eqb_refl; cbn [andb];
      destruct (Z.eqb_spec (negotiateProtocol v (n_ver t)) v) as [E|E]; cbn; auto.
    + apply incl_tl, incl_refl.
    + apply incl_tl, incl_refl.
    + intros Pv. destruct (negotiate_supported _ _ Pv E). split; cbn; [auto|lia].
    + intros Pn. destruct (gi_neg _ _ _ s G t (nth_error_In _ _ H) Pn) as [X Y]. split; cbn; auto.
  - eapply (ginv_busy s _ i t (abort_cmd t v c) G H P); try reflexivity; unfold abort_cmd;
      (replace (c =? VERSION_MISMATCH) with false by (symmetry; apply Z.eqb_neq, C)); cbn; auto.
    + apply incl_refl.
    + intros Pn. apply (gi_neg _ _ _ s G t); [eapply nth_error_In; exact H|exact Pn].
  - apply ginv_abort; [exact G|]. cbn. destruct (Z.eqb_spec c VERSION_MISMATCH); cbn [andb]; [congruence|]. exact C.
  - apply ginv_bar_up; assumption.
  - apply ginv_fun_up; assumption.
Qed.

Lemma ginv_step hon s s' : ginv s -> nstep cs hon s (Some s') -> ginv s'.
Proof. intros G [S|(x & E & S)]; [exact (ginv_int cs n v0 s s' G S)|]. injection E as <-. exact (ginv_next hon s s' G S). Qed.
Lemma ginv_reach hon s : nreach cs hon n v0 s -> ginv s.
Proof. induction 1; [apply ginv_init|eapply ginv_step; eassumption]. Qed.
End I.
