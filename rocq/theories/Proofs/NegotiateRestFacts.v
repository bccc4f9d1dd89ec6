(** How long the threads can go on by themselves, and where they stop. *)
From Coq Require Import Lia.
From Verif Require Import Spec.NegotiateSpec Proofs.QueueMonitorFacts Proofs.CountFacts Proofs.ThreadsCtlFacts Proofs.NegotiateFacts
  Proofs.NegotiateStepFacts Proofs.NegotiateReachFacts Proofs.NegotiateMainFacts.
Open Scope Z_scope.

(** How many steps a thread has ahead of it at most. *)
Definition rk (c : bool) (F : fstatus) (p : npc) (b : bst) (f : fst_) : nat :=
  match p with
  | PTop NEnd => 2 | PDone => 1 | PGone | PBusy => 0
  | PTop _ => match b with BOut => 40 | _ => 4 end
  | PEnter => match b with BOut => 39 | _ => 3 end
  | PHit => 38
  | PBarrier => match b with BPassed => 18 | BAsleep => if c then 19 else 20 | _ => if c then 19 else 21 end
  | PFunnel => match F, f with
               | FStart, FWoken => 14 | FStart, FLoop => 13 | FStart, _ => 12
               | FProgress, FWoken => 12 | FProgress, FLoop => 11 | FProgress, FSawProgress => 10 | FProgress, _ => 9
               | FEnd, FSawProgress => 8 | FEnd, FWoken => 7 | FEnd, FLoop => 6 | FEnd, _ => 5
               end
  | PWork k => match k with WBegin => 12 | WCollect => 11 | WVersion _ => 10 | WResolve => 9 | WClear => 8 | WNotify _ => 7 end
  end%nat.
Definition rank (s : nsys) (i : nat) : nat :=
  match nth_error (g_thr s) i, nth_error (b_st (g_bar s)) i, nth_error (f_st (g_fun s)) i with
  | Some t, Some b, Some f => rk (b_complete (g_bar s)) (f_status (g_fun s)) (n_pc t) b f
  | _, _, _ => 0%nat
  end.
Definition total (s : nsys) (n : nat) : nat := list_sum (map (rank s) (seq 0 n)).

Lemma sum_le (f g : nat -> nat) l : (forall j, In j l -> (g j <= f j)%nat) -> (list_sum (map g l) <= list_sum (map f l))%nat.
Proof. unfold list_sum. induction l as [|a l IH]; cbn; intros H; [lia|]. pose proof (H a (or_introl eq_refl)). pose proof (IH (fun j I => H j (or_intror I))). lia. Qed.
Lemma sum_lt (f g : nat -> nat) l i : In i l -> (g i < f i)%nat -> (forall j, In j l -> (g j <= f j)%nat) ->
  (list_sum (map g l) < list_sum (map f l))%nat.
Proof.
  unfold list_sum. induction l as [|a l IH]; cbn; intros I L H; [tauto|]. destruct I as [->|I].
  - pose proof (sum_le f g l (fun j J => H j (or_intror J))) as X. unfold list_sum in X. lia.
  - pose proof (H a (or_introl eq_refl)). pose proof (IH I L (fun j J => H j (or_intror J))). lia.
Qed.
Lemma sum_bound (f : nat -> nat) k l : (forall j, (f j <= k)%nat) -> (list_sum (map f l) <= k * length l)%nat.
Proof. intros H. unfold list_sum. induction l as [|a l IH]; cbn; [lia|]. pose proof (H a). lia. Qed.

Lemma rk_bound c F p b f : (rk c F p b f <= 40)%nat.
Proof. destruct p as [[| |]| | | | | |[| | | | |]| |], b, c, F, f; cbn; lia. Qed.
Lemma total_bound s n : (total s n <= 40 * n)%nat.
Proof.
  unfold total. rewrite <- (seq_length n 0) at 2. apply sum_bound. intros j. unfold rank.
  destruct (nth_error (g_thr s) j); [|lia]. destruct (nth_error (b_st (g_bar s)) j); [|lia]. destruct (nth_error (f_st (g_fun s)) j); [apply rk_bound|lia].
Qed.

(** The rank of the others never grows. *)
Lemma rk_complete F p b f : (rk true F p (b_wake b) f <= rk false F p b f)%nat.
Proof. destruct p as [[| |]| | | | | |[| | | | |]| |], b, F, f; cbn; lia. Qed.
Lemma rk_progress c p b f : (rk c FProgress p b f <= rk c FStart p b f)%nat.
Proof. destruct p as [[| |]| | | | | |[| | | | |]| |], b, c, f; cbn; lia. Qed.
Lemma rk_end c p b f : (rk c FEnd p b (f_wake f) <= rk c FProgress p b f)%nat.
Proof. destruct p as [[| |]| | | | | |[| | | | |]| |], b, c, f; cbn; lia. Qed.

Lemma total_less cs n v s s' i : ginv cs n v s -> (i < n)%nat -> (rank s' i < rank s i)%nat ->
  (forall j, j <> i -> (rank s' j <= rank s j)%nat) -> (total s' n < total s n)%nat.
Proof.
  intros G I L O. apply (sum_lt _ _ _ i); [apply in_seq; lia|exact L|]. intros j _. destruct (Nat.eq_dec j i) as [->|N]; [lia|auto].
Qed.

(** What the barrier does to the others. *)
Lemma bar_others b i r : barrier_execute b i = Ret r \/ barrier_deregister b i = Ret r ->
  (b_complete r = b_complete b /\ forall j, j <> i -> nth_error (b_st r) j = nth_error (b_st b) j) \/
  (b_complete b = false /\ b_complete r = true /\ forall j, j <> i -> nth_error (b_st r) j = option_map b_wake (nth_error (b_st b) j)).
Proof.
  intros [E|E]; revert E; [unfold barrier_execute|unfold barrier_deregister]; destruct (b_complete b) eqn:C; try discriminate;
    unfold checkForFinish; cbn [b_hits b_threads b_complete b_st].
  - destruct (b_threads b <? b_hits b + 1); [discriminate|]. destruct (b_hits b + 1 =? b_threads b); cbn [obind]; intros E; injection E as <-; cbn.
    + right. repeat split. intros j N. rewrite nth_set_other by congruence. apply nth_error_map.
    + left. rewrite ?C. repeat split. intros j N. apply nth_set_other; congruence.
  - intros E; injection E as <-. left. cbn. split; [exact C|]. intros j N. apply nth_set_other; congruence.
  - destruct (b_threads b - 1 <? b_hits b); [discriminate|]. destruct (b_hits b =? b_threads b - 1); cbn [obind snd]; intros E; injection E as <-; cbn.
    + right. repeat split. intros j N. rewrite nth_set_other by congruence. apply nth_error_map.
    + left. rewrite ?C. repeat split. intros j N. apply nth_set_other; congruence.
Qed.

Ltac look G H := match type of H with nth_error (g_thr ?s) ?i = Some ?t =>
  let bs := fresh "bs" in let fs := fresh "fs" in let Hb := fresh "Hb" in let Hf := fresh "Hf" in let T := fresh "T" in
  destruct (ginv_bst _ _ _ s i t G H) as (bs & Hb); destruct (ginv_fst _ _ _ s i t G H) as (fs & Hf);
  pose proof (gi_thr _ _ _ s G i t bs fs H Hb Hf) as T; unfold tcoh in T
  end.
Ltac newlook G' H t' := match type of G' with NegotiateFacts.ginv _ _ _ ?S => match type of H with nth_error _ ?i = _ =>
  let H' := fresh "H'" in assert (H' : nth_error (g_thr S) i = Some t') by exact (nth_set_same _ _ _ t' H); look G' H' end end.
Ltac rank_at := unfold rank; cbn [g_thr g_fun g_bar g_set_fun g_set g_set_bar g_set_status g_set_version g_set_abort b_st f_st b_complete f_status b_set f_set].
(** A step of thread [i] that touches nothing but its own entries. *)
Ltac own G H Hb Hf := rank_at; rewrite ?(nth_set_same _ _ _ _ H), ?(nth_set_same _ _ _ _ Hb), ?(nth_set_same _ _ _ _ Hf), ?H, ?Hb, ?Hf;
  cbn [n_pc at_pc at_pc_aborted].
Ltac others := let j := fresh "j" in let N := fresh "N" in intros j N; rank_at; rewrite ?nth_set_other by congruence; try apply Nat.le_refl.

Lemma shrink cs n v s s' : ginv cs n v s -> nint cs s (Some s') -> (total s' n < total s n)%nat.
Proof.
  intros G S. pose proof (ginv_int cs n v s s' G S) as G'. remember (Some s') as r eqn:E.
  destruct S; try discriminate E; injection E as <-; look G H; rewrite H0 in T;
    (assert (I : (i < n)%nat) by (rewrite <- (gi_len _ _ _ s G); apply nth_error_Some; congruence)); apply (total_less cs n v _ _ i G I).
  - own G H Hb Hf. rewrite H0. cbn. lia.
  - others.
  - newlook G' H (at_pc t PGone). rank_at. rewrite H, Hb, Hf, H0. cbn in Hb0, Hf0. rewrite ?Hb0, ?Hf0, (nth_set_same _ _ _ _ H). cbn. lia.
  - intros j N. rank_at. rewrite nth_set_other by congruence. destruct (nth_error (g_thr s) j) as [u|]; [|lia].
    destruct (bar_others _ _ _ (or_intror H1)) as [[C O]|(C1 & C2 & O)]; rewrite (O j N).
    + rewrite C. lia.
    + rewrite C1, C2. destruct (nth_error (b_st (g_bar s)) j); cbn; [|lia]. destruct (nth_error (f_st (g_fun s)) j); [apply rk_complete|lia].
  - own G H Hb Hf. rewrite H0. destruct x; cbn; destruct bs; try lia; now destruct H1.
  - others.
  - own G H Hb Hf. rewrite H0. destruct x; cbn; destruct bs; try lia; now destruct H1.
  - others.
  - own G H Hb Hf. rewrite H0. destruct x; cbn; destruct bs; try lia; now destruct H1.
  - others.
  - own G H Hb Hf. rewrite H0. cbn. destruct bs; lia.
  - others.
  - own G H Hb Hf. rewrite H0. destruct T as (O & _). destruct (out_status _ _ _ _ _ _ _ G Hb O) as [[-> _]|[_ X]]; [|congruence]. cbn. lia.
  - others.
  - newlook G' H (at_pc t PBarrier). rank_at. rewrite H, Hb, Hf, H0. cbn in Hb0, Hf0. rewrite ?Hb0, ?Hf0, (nth_set_same _ _ _ _ H). cbn.
    destruct bs0, (b_complete b); lia.
  - intros j N. rank_at. rewrite nth_set_other by congruence. destruct (nth_error (g_thr s) j) as [u|]; [|lia].
    destruct (bar_others _ _ _ (or_introl H1)) as [[C O]|(C1 & C2 & O)]; rewrite (O j N).
    + rewrite C. lia.
    + rewrite C1, C2. destruct (nth_error (b_st (g_bar s)) j); cbn; [|lia]. destruct (nth_error (f_st (g_fun s)) j); [apply rk_complete|lia].
  - rewrite H1 in Hb. injection Hb as <-. unfold barrier_woken. own G H H1 Hf. rewrite H0. destruct (b_complete (g_bar s)); cbn; lia.
  - unfold barrier_woken. others.
  - rewrite H1 in Hb. injection Hb as <-. own G H H1 Hf. rewrite H0. destruct (f_status (g_fun s)); cbn; lia.
  - others.
  - rewrite H1 in Hf. injection Hf as <-. unfold funnel_getStatus. destruct (f_status (g_fun s)) eqn:F; own G H Hb H1; rewrite H0, ?F; cbn; lia.
  - intros j N. unfold funnel_getStatus. destruct (f_status (g_fun s)) eqn:F; rank_at; rewrite !nth_set_other by congruence; rewrite ?F; try lia.
    destruct (nth_error (g_thr s) j) as [u|]; [|lia]. destruct (nth_error (b_st (g_bar s)) j); [|lia]. destruct (nth_error (f_st (g_fun s)) j); [apply rk_progress|lia].
  - rewrite H1 in Hf. injection Hf as <-. unfold funnel_wait. own G H Hb H1. rewrite H0. destruct T as (_ & T).
    destruct (f_status (g_fun s)) eqn:F; cbn; try lia. exfalso. destruct T as [X|[[_ X]|[[X _]|[X|[X _]]]]]; congruence.
  - unfold funnel_wait. others.
  - rewrite H1 in Hf. injection Hf as <-. own G H Hb H1. rewrite H0. destruct (f_status (g_fun s)); cbn; lia.
  - others.
  - own G H Hb Hf. rewrite H0. cbn. destruct (f_status (g_fun s)), fs; lia.
  - others.
  - own G H Hb Hf. rewrite H0. destruct T as (-> & _). cbn. destruct (f_status (g_fun s)), fs; lia.
  - others.
  - own G H Hb Hf. rewrite H0. cbn. lia.
  - others.
  - own G H Hb Hf. rewrite H0. cbn. lia.
  - others.
  - own G H Hb Hf. rewrite H0. cbn. lia.
  - others.
  - own G H Hb Hf. rewrite H0. cbn. lia.
  - others.
  - own G H Hb Hf. rewrite H0. cbn. lia.
  - others.
  - own G H Hb Hf. rewrite H0. cbn. lia.
  - others.
  - own G H Hb Hf. rewrite H0. cbn. lia.
  - others.
  - newlook G' H (at_pc t (PTop x)). destruct T as (-> & -> & W & _). rank_at. rewrite H, Hb, Hf, H0. cbn in Hb0, Hf0. cbn [funnel_success f_st].
    rewrite ?Hb0, ?Hf0, (nth_set_same _ _ _ _ H). rewrite Hb in Hb0. injection Hb0 as <-. cbn. destruct x; lia.
  - destruct T as (_ & -> & _). pose proof (ginv_working _ _ _ s i G Hf) as F. intros j N. rank_at. cbn [funnel_success f_st f_status]. rewrite !nth_set_other by congruence. rewrite nth_error_map, F.
    destruct (nth_error (g_thr s) j) as [u|]; [|lia]. destruct (nth_error (b_st (g_bar s)) j); [|lia]. destruct (nth_error (f_st (g_fun s)) j); cbn; [apply rk_end|lia].
Qed.

Lemma settles cs hon n v s k s' : nreach cs hon n v s -> nrun cs k s s' -> (k <= 40 * n)%nat.
Proof.
  intros R S. enough (X : (k + total s' n <= total s n)%nat) by (pose proof (total_bound s n); lia).
  pose proof (ginv_reach _ _ _ _ _ R) as G. clear R. induction S as [s|k s1 s2 s3 S SS IH]; [lia|].
  pose proof (shrink cs n v s1 s2 G S). specialize (IH (ginv_int cs n v s1 s2 G S)). lia.
Qed.

(** Somebody is missing at a closed barrier. *)
Lemma csum_some (f : bst -> nat) l : (0 < csum f l)%nat -> exists i b, nth_error l i = Some b /\ (0 < f b)%nat.
Proof.
  induction l as [|a l IH]; cbn; intros H; [lia|]. destruct (f a) eqn:E; [|exists 0%nat, a; cbn; split; [reflexivity|lia]].
  destruct (IH ltac:(lia)) as (i & b & X & Y). exists (S i), b. auto.
Qed.
Lemma missing cs n v s i : ginv cs n v s -> nth_error (b_st (g_bar s)) i = Some BAsleep -> exists j, nth_error (b_st (g_bar s)) j = Some BOut.
Proof.
  intros G H. pose proof (ginv_basleep _ _ _ s i G H) as C. destruct (gi_bar _ _ _ s G) as (_ & _ & B). destruct (B C) as (_ & _ & _ & B4 & _).
  pose proof (csum_one nA _ _ _ H) as A. cbn in A.
  destruct (csum nO (b_st (g_bar s))) eqn:E; [exfalso; specialize (B4 eq_refl); lia|].
  destruct (csum_some nO (b_st (g_bar s))) as (j & b & X & Y); [lia|]. exists j. rewrite X. destruct b; cbn in Y; try lia. reflexivity.
Qed.
Lemma csum_somef (f : fst_ -> nat) l : (0 < csum f l)%nat -> exists i b, nth_error l i = Some b /\ (0 < f b)%nat.
Proof.
  induction l as [|a l IH]; cbn; intros H; [lia|]. destruct (f a) eqn:E; [|exists 0%nat, a; cbn; split; [reflexivity|lia]].
  destruct (IH ltac:(lia)) as (i & b & X & Y). exists (S i), b. auto.
Qed.
Lemma worker cs n v s : ginv cs n v s -> f_status (g_fun s) = FProgress -> exists j u k, nth_error (g_thr s) j = Some u /\ n_pc u = PWork k.
Proof.
  intros G F. destruct (gi_fun _ _ _ s G) as (HW & _). rewrite F in HW.
  destruct (csum_somef fW (f_st (g_fun s))) as (j & b & X & Y); [lia|].
  assert (I : (j < n)%nat) by (rewrite <- (gi_flen _ _ _ s G); apply nth_error_Some; congruence).
  destruct (nth_error (g_thr s) j) as [u|] eqn:H; [|apply nth_error_None in H; rewrite (gi_len _ _ _ s G) in H; lia].
  exists j, u. look G H. rewrite X in Hf. injection Hf as <-. destruct b; cbn in Y; try lia.
  destruct (n_pc u) as [x| | | | | |k| |] eqn:P; unfold out in T; [| | | | | |exists k; auto| |];
    repeat match goal with H : _ /\ _ |- _ => destruct H | H : _ \/ _ |- _ => destruct H end; congruence.
Qed.
Lemma work_goes cs s j u k : nth_error (g_thr s) j = Some u -> n_pc u = PWork k -> at_rest cs s -> False.
Proof. intros H P A. destruct k; eapply A; [eapply N_begin|eapply N_acked|eapply N_version|eapply N_resolve|eapply N_clear|eapply N_notify]; eauto. Qed.

Lemma rest_pc cs n v s i t : ginv cs n v s -> at_rest cs s -> nth_error (g_thr s) i = Some t ->
  talking t \/ gone t \/ held s i.
Proof.
  intros G A H. look G H. unfold talking, gone, held. destruct (n_pc t) as [x| | | | | |k| |] eqn:P; auto.
  - exfalso. destruct x; [eapply A, N_break|eapply A, N_break|eapply A, N_leave]; eauto; discriminate.
  - exfalso. destruct T as (O & _ & B). destruct (out_status _ _ _ _ _ _ _ G Hb O) as [[_ X]|[_ X]]; eapply A; [eapply N_wait|eapply N_resolved]; eauto.
  - exfalso. destruct T as (-> & _). destruct (bst_hit _ _ _ s i G Hb) as (b & X & _). eapply A, N_hit; eauto.
  - destruct T as ([->|[->| ->]] & _); [auto|exfalso; eapply A, N_woken; eauto|exfalso; eapply A, N_passed; eauto].
  - exfalso. destruct T as (_ & [->|[[-> F]|[[-> F]|[->|[-> F]]]]]).
    + eapply A, N_get; eauto.
    + eapply A, N_fwait; eauto.
    + destruct (worker _ _ _ s G F) as (j & u & k & X & Y). exact (work_goes cs s j u k X Y A).
    + eapply A, N_fwoken; eauto.
    + pose proof (gi_glob _ _ _ s G) as X. unfold glob in X. rewrite F in X. destruct X as [[X _]|[X _]]; eapply A; [eapply N_end_failed|eapply N_end_resolved]; eauto.
  - exfalso. exact (work_goes cs s i t k H P A).
  - exfalso. assert (O : bs = BOut \/ bs = BPassed) by (destruct T as [[-> _]|[-> _]]; auto).
    destruct (bst_gone _ _ _ s i bs G Hb O) as (b & X & _). eapply A, N_gone; eauto.
Qed.
Lemma rest cs hon n v s i t : nreach cs hon n v s -> at_rest cs s -> nth_error (g_thr s) i = Some t ->
  talking t \/ gone t \/ (held s i /\ exists u, In u (g_thr s) /\ talking u).
Proof.
  intros R A H. pose proof (ginv_reach _ _ _ _ _ R) as G. destruct (rest_pc cs n v s i t G A H) as [X|[X|X]]; auto.
  right; right. split; [exact X|]. destruct (missing _ _ _ s i G X) as (j & J).
  assert (I : (j < n)%nat). { destruct (gi_bar _ _ _ s G) as (L & _). rewrite <- L. apply nth_error_Some. congruence. }
  destruct (nth_error (g_thr s) j) as [u|] eqn:U; [|apply nth_error_None in U; rewrite (gi_len _ _ _ s G) in U; lia].
  exists u. split; [eapply nth_error_In; exact U|]. destruct (rest_pc cs n v s j u G A U) as [Y|[Y|Y]]; [exact Y| |unfold held in Y; congruence].
  exfalso. look G U. rewrite Y in T. destruct T as (-> & _). congruence.
Qed.
