(** The invariant behind the settlement of a version mismatch. *)
From Coq Require Import Lia.
From Verif Require Import Spec.NegotiateSpec Proofs.QueueMonitorFacts Proofs.CountFacts Proofs.ThreadsCtlFacts.
Open Scope Z_scope.

(** ** The version picked *)
Lemma pick_some l : forall acc v, pick acc l = Some v ->
  (v = acc \/ (0 < v /\ In v l)) /\ (forall x, In x l -> 0 < x -> x = v) /\ (0 < acc -> v = acc).
Proof.
  induction l as [|x l IH]; intros acc v E; cbn in E.
  - injection E as <-. split; [now left|]. split; [intros x []|reflexivity].
  - destruct (Z.ltb_spec 0 x) as [P|P].
    + destruct (Z.ltb_spec 0 acc) as [Q|Q]; cbn [andb] in E.
      * destruct (Z.eqb_spec acc x) as [->|N]; [|discriminate E]. cbn [negb] in E.
        destruct (IH _ _ E) as (A & B & C). rewrite (C P) in *. split; [now left|]. split; [|reflexivity].
        intros y [->|H] Hy; [reflexivity|]. rewrite (B y H Hy). reflexivity.
      * destruct (IH _ _ E) as (A & B & C). rewrite (C P) in *. split; [right; split; [exact P|now left]|]. split; [|lia].
        intros y [->|H] Hy; [reflexivity|]. rewrite (B y H Hy). reflexivity.
    + destruct (IH _ _ E) as (A & B & C). split; [destruct A as [->|[A1 A2]]; [now left|right; split; [exact A1|now right]]|].
      split; [|exact C]. intros y [->|H] Hy; [lia|exact (B y H Hy)].
Qed.
Lemma pick_pos l v : pick 0 l = Some v -> 0 < v -> In v l /\ forall x, In x l -> 0 < x -> x = v.
Proof. intros E P. destruct (pick_some _ _ _ E) as ([->|[_ A]] & B & _); [lia|auto]. Qed.
Lemma pick_zero l v : pick 0 l = Some v -> v <= 0 -> forall x, In x l -> x <= 0.
Proof.
  intros E P x I. destruct (pick_some _ _ _ E) as (_ & B & _). destruct (Z.le_gt_cases x 0) as [|G]; [assumption|].
  rewrite (B x I) by lia. exact P.
Qed.

Lemma in_set {A} (l : list A) i x y : In y (set_nth l i x) -> y = x \/ In y l.
Proof.
  revert i; induction l as [|a l IH]; intros [|i] H; cbn in H; try tauto.
  - destruct H as [->|H]; [now left|right; now right].
  - destruct H as [->|H]; [right; now left|]. destruct (IH i H) as [->|X]; [now left|right; now right].
Qed.
Lemma nth_set {A} (l : list A) i j x y : nth_error (set_nth l i x) j = Some y -> (i = j /\ y = x) \/ (i <> j /\ nth_error l j = Some y).
Proof.
  intros H. destruct (Nat.eq_dec i j) as [->|N]; [left|right; split; [exact N|now rewrite nth_set_other in H by exact N]].
  split; [reflexivity|]. assert (X : (j < length l)%nat) by (rewrite <- (set_nth_length l j x); apply nth_error_Some; congruence).
  destruct (nth_error l j) as [t|] eqn:E; [|apply nth_error_None in E; lia].
  rewrite (nth_set_same _ _ _ x E) in H. now injection H as ->.
Qed.

Lemma set_same {A} (l : list A) i x : nth_error l i = Some x -> set_nth l i x = l.
Proof. revert i; induction l as [|a l IH]; intros [|i] H; cbn in *; try discriminate; [now injection H as ->|now rewrite IH]. Qed.

(** The barrier's part of a step. *)
Lemma bar_exec b i r : barrier_execute b i = Ret r -> (b_complete b = true -> b_complete r = true)
  /\ (forall j, j <> i -> nth_error (b_st r) j = nth_error (b_st b) j \/ nth_error (b_st r) j = option_map b_wake (nth_error (b_st b) j))
  /\ (forall x, nth_error (b_st r) i = Some x -> x = BPassed \/ x = BAsleep).
Proof.
  unfold barrier_execute. destruct (b_complete b) eqn:C; [discriminate|]. unfold checkForFinish. cbn [b_hits b_threads b_complete b_st].
  destruct (b_threads b <? b_hits b + 1); [discriminate|]. destruct (b_hits b + 1 =? b_threads b); cbn [obind]; intros E; injection E as <-; cbn.
  - split; [auto|]. split.
    + intros j N. right. rewrite nth_set_other by congruence. apply nth_error_map.
    + intros x X. apply nth_set in X. destruct X as [[_ ->]|[X _]]; [auto|congruence].
  - rewrite ?C. split; [auto|]. split.
    + intros j N. left. rewrite nth_set_other by congruence. reflexivity.
    + intros x X. apply nth_set in X. destruct X as [[_ ->]|[X _]]; [auto|congruence].
Qed.
Lemma bar_dereg b i r : barrier_deregister b i = Ret r -> (b_complete b = true -> b_complete r = true)
  /\ (forall j, j <> i -> nth_error (b_st r) j = nth_error (b_st b) j \/ nth_error (b_st r) j = option_map b_wake (nth_error (b_st b) j))
  /\ (forall x, nth_error (b_st r) i = Some x -> x = BGone).
Proof.
  assert (X : forall l x, nth_error (set_nth l i BGone) i = Some x -> x = BGone).
  { intros l x X. apply nth_set in X. destruct X as [[_ ->]|[X _]]; [auto|congruence]. }
  unfold barrier_deregister. destruct (b_complete b) eqn:C.
  - intros E; injection E as <-. cbn. rewrite C. split; [auto|]. split; [|apply X]. intros j N. left. rewrite nth_set_other by congruence. reflexivity.
  - unfold checkForFinish. cbn [b_hits b_threads b_complete b_st].
    destruct (b_threads b - 1 <? b_hits b); [discriminate|]. destruct (b_hits b =? b_threads b - 1); cbn [obind snd]; intros E; injection E as <-; cbn.
    + split; [auto|]. split; [|apply X]. intros j N. right. rewrite nth_set_other by congruence. apply nth_error_map.
    + rewrite ?C. split; [auto|]. split; [|apply X]. intros j N. left. rewrite nth_set_other by congruence. reflexivity.
Qed.
Section I.
Variable (cs : bool) (n : nat) (v0 : Z).

Definition agreed (s : nsys) (v : Z) : Prop := forall t, In t (g_thr s) -> 0 < n_neg t -> n_neg t = v.
Definition chosen (s : nsys) (v : Z) : Prop := In v (g_offers s) /\ 10 <= v <= v0.
Definition wk (s : nsys) (k : nwork) : Prop :=
  match k with
  | WBegin => g_status s = VWait /\ g_version s = v0
  | WCollect => g_status s = VFailed /\ g_version s = v0
  | WVersion v => g_status s = VFailed /\ g_version s = v0 /\ chosen s v /\ agreed s v
  | WResolve => g_status s = VFailed /\ chosen s (g_version s) /\ agreed s (g_version s)
  | WClear => g_status s = VResolved /\ chosen s (g_version s) /\ agreed s (g_version s)
  | WNotify NOther => g_status s = VResolved /\ chosen s (g_version s) /\ agreed s (g_version s) /\ g_abort s <> VERSION_MISMATCH
  | WNotify NEnd => g_status s = VFailed /\ g_version s = v0
  | WNotify NMismatch => False
  end.
Definition out (F : fstatus) (S : vstat) (fin : Prop) (bs : bst) (fs : fst_) : Prop :=
  (bs = BOut /\ fs = FOut) \/
  (bs = BPassed /\ (fs = FSucceeded \/ fs = FSawEnd) /\ F = FEnd /\ (S = VResolved \/ fin)).
Definition late (k : nwork) : bool := match k with WResolve | WClear | WNotify NOther => true | _ => false end.
Definition tcoh (F : fstatus) (S : vstat) (V : Z) (W : nwork -> Prop) (t : nthread) (bs : bst) (fs : fst_) : Prop :=
  match n_pc t with
  | PTop x => out F S (x = NEnd) bs fs /\ (x <> NEnd -> n_ver t = V) /\ (x = NMismatch -> n_abort t = true)
  | PBusy => out F S False bs fs /\ n_ver t = V
  | PEnter => out F S False bs fs /\ n_ver t = V /\ n_abort t = true
  | PHit => bs = BOut /\ fs = FOut
  | PBarrier => (bs = BAsleep \/ bs = BWoken \/ bs = BPassed) /\ fs = FOut
  | PFunnel => bs = BPassed /\ (fs = FLoop \/ (fs = FSawProgress /\ F <> FStart) \/ (fs = FAsleep /\ F = FProgress) \/ fs = FWoken \/ (fs = FSawEnd /\ F = FEnd))
  | PWork k => bs = BPassed /\ fs = FWorking /\ W k /\ (late k = true -> n_ver t = V)
  | PDone => out F S True bs fs
  | PGone => bs = BGone /\ fs <> FAsleep /\ fs <> FWorking
  end.
Definition foot (s : nsys) (t : nthread) : Prop :=
  n_footer t = footer_for cs v0 \/ n_footer t = footer_for cs (g_version s).
Definition glob (s : nsys) : Prop :=
  match f_status (g_fun s) with
  | FStart => g_status s = VWait /\ g_version s = v0
  | FProgress => True
  | FEnd => (g_status s = VFailed /\ g_version s = v0) \/ (g_status s = VResolved /\ chosen s (g_version s))
  end.
Record ginv (s : nsys) : Prop := {
  gi_len : length (g_thr s) = n;
  gi_flen : length (f_st (g_fun s)) = n;
  gi_bar : binv n (g_bar s);
  gi_fun : finv (g_fun s);
  gi_compl : f_status (g_fun s) <> FStart -> b_complete (g_bar s) = true;
  gi_glob : glob s;
  gi_low : g_version s <= v0;
  gi_neg : forall t, In t (g_thr s) -> 0 < n_neg t -> chosen s (n_neg t);
  gi_foot : forall t, In t (g_thr s) -> foot s t;
  gi_thr : forall i t bs fs, nth_error (g_thr s) i = Some t -> nth_error (b_st (g_bar s)) i = Some bs ->
    nth_error (f_st (g_fun s)) i = Some fs -> tcoh (f_status (g_fun s)) (g_status s) (g_version s) (wk s) t bs fs
}.

Lemma tcoh_w F S V (W W' : nwork -> Prop) t bs fs : tcoh F S V W t bs fs -> (forall k, n_pc t = PWork k -> W k -> W' k) ->
  tcoh F S V W' t bs fs.
Proof. unfold tcoh. destruct (n_pc t); auto. intros (A & B & C & D) H. auto 6. Qed.
Lemma tcoh_bw F S V W t bs fs : tcoh F S V W t bs fs -> tcoh F S V W t (b_wake bs) fs.
Proof.
  unfold tcoh, out. destruct (n_pc t); intros H; repeat match goal with
    | H : _ /\ _ |- _ => destruct H | H : _ \/ _ |- _ => destruct H end; subst; cbn; repeat split; auto 8.
Qed.

(** The states of a thread in the barrier and in the funnel. *)
Lemma ginv_bst s i t : ginv s -> nth_error (g_thr s) i = Some t -> exists bs, nth_error (b_st (g_bar s)) i = Some bs.
Proof.
  intros G H. destruct (gi_bar s G) as (L & _). assert (X : (i < n)%nat) by (rewrite <- (gi_len s G); apply nth_error_Some; congruence).
  destruct (nth_error (b_st (g_bar s)) i) eqn:E; [eauto|]. apply nth_error_None in E. lia.
Qed.
Lemma ginv_fst s i t : ginv s -> nth_error (g_thr s) i = Some t -> exists fs, nth_error (f_st (g_fun s)) i = Some fs.
Proof.
  intros G H. assert (X : (i < n)%nat) by (rewrite <- (gi_len s G); apply nth_error_Some; congruence).
  destruct (nth_error (f_st (g_fun s)) i) eqn:E; [eauto|]. apply nth_error_None in E. pose proof (gi_flen s G). lia.
Qed.
(** A thread that has not reached the barrier: nobody has passed it. *)
Lemma ginv_bout s i : ginv s -> nth_error (b_st (g_bar s)) i = Some BOut -> b_complete (g_bar s) = false.
Proof.
  intros G H. destruct (b_complete (g_bar s)) eqn:E; [|reflexivity]. destruct (gi_bar s G) as (_ & HT & _).
  destruct (HT E) as [HO _]. pose proof (csum_one nO _ _ _ H) as X. cbn in X. lia.
Qed.
Lemma ginv_bpassed s i : ginv s -> nth_error (b_st (g_bar s)) i = Some BPassed -> b_complete (g_bar s) = true.
Proof.
  intros G H. destruct (b_complete (g_bar s)) eqn:E; [reflexivity|]. destruct (gi_bar s G) as (_ & _ & HF).
  destruct (HF E) as (_ & _ & HP & _). pose proof (csum_one nP _ _ _ H) as X. cbn in X. lia.
Qed.
Lemma ginv_basleep s i : ginv s -> nth_error (b_st (g_bar s)) i = Some BAsleep -> b_complete (g_bar s) = false.
Proof.
  intros G H. destruct (b_complete (g_bar s)) eqn:E; [|reflexivity]. destruct (gi_bar s G) as (_ & HT & _).
  destruct (HT E) as [_ HA]. pose proof (csum_one nA _ _ _ H) as X. cbn in X. lia.
Qed.
Lemma ginv_start s : ginv s -> b_complete (g_bar s) = false -> f_status (g_fun s) = FStart.
Proof. intros G E. destruct (f_status (g_fun s)) eqn:X; [reflexivity| |]; rewrite (gi_compl s G) in E by congruence; discriminate E. Qed.
(** Somebody works exactly while the funnel is in progress. *)
Lemma ginv_working s i : ginv s -> nth_error (f_st (g_fun s)) i = Some FWorking -> f_status (g_fun s) = FProgress.
Proof.
  intros G H. destruct (gi_fun s G) as (HW & _). pose proof (csum_one fW _ _ _ H) as X. cbn in X.
  destruct (f_status (g_fun s)); [lia|reflexivity|lia].
Qed.
Lemma ginv_one s i j : ginv s -> nth_error (f_st (g_fun s)) i = Some FWorking -> nth_error (f_st (g_fun s)) j = Some FWorking -> i = j.
Proof.
  intros G Hi Hj. pose proof (ginv_working _ _ G Hi) as P. destruct (gi_fun s G) as (HW & _). rewrite P in HW.
  destruct (Nat.eq_dec i j) as [|N]; [assumption|exfalso].
  pose proof (csum_set fW _ _ _ FOut Hi) as E. cbn [fW] in E.
  assert (Hj' : nth_error (set_nth (f_st (g_fun s)) i FOut) j = Some FWorking) by (rewrite nth_set_other by exact N; exact Hj).
  pose proof (csum_one fW _ _ _ Hj') as X. cbn in X. lia.
Qed.
(** A thread that is out and not at its end: nobody works. *)
Lemma ginv_out_quiet s i bs fs fin : ginv s -> nth_error (b_st (g_bar s)) i = Some bs ->
  out (f_status (g_fun s)) (g_status s) fin bs fs -> f_status (g_fun s) <> FProgress.
Proof.
  intros G Hb [[-> _]|(_ & _ & F & _)]; [|congruence]. rewrite (ginv_start s G (ginv_bout s i G Hb)). discriminate.
Qed.
Lemma ginv_no_work s i t k : ginv s -> f_status (g_fun s) <> FProgress -> nth_error (g_thr s) i = Some t -> n_pc t <> PWork k.
Proof.
  intros G F H E. destruct (ginv_bst s i t G H) as (bs & Hb), (ginv_fst s i t G H) as (fs & Hf).
  pose proof (gi_thr s G i t bs fs H Hb Hf) as T. unfold tcoh in T. rewrite E in T. destruct T as (_ & -> & _).
  now rewrite (ginv_working s i G Hf) in F.
Qed.

(** Who else is where, once the barrier is open and the funnel not finished. *)
Lemma ginv_inside s j t : ginv s -> b_complete (g_bar s) = true -> f_status (g_fun s) <> FEnd ->
  nth_error (g_thr s) j = Some t -> n_pc t = PBarrier \/ n_pc t = PFunnel \/ n_pc t = PGone \/ exists k, n_pc t = PWork k.
Proof.
  intros G C F H. destruct (ginv_bst s j t G H) as (bs & Hb), (ginv_fst s j t G H) as (fs & Hf).
  pose proof (gi_thr s G j t bs fs H Hb Hf) as T. unfold tcoh, out in T.
  assert (NB : bs <> BOut) by (intros ->; rewrite (ginv_bout s j G Hb) in C; discriminate C).
  destruct (n_pc t); try tauto; eauto.
Qed.

Lemma ginv_keep s s' i t t' : ginv s -> nth_error (g_thr s) i = Some t ->
  g_thr s' = set_nth (g_thr s) i t' -> n_neg t' = n_neg t -> foot s t' ->
  g_status s' = g_status s -> g_version s' = g_version s -> g_offers s' = g_offers s ->
  (g_abort s <> VERSION_MISMATCH -> g_abort s' <> VERSION_MISMATCH) ->
  binv n (g_bar s') -> (b_complete (g_bar s) = true -> b_complete (g_bar s') = true) ->
  finv (g_fun s') -> f_status (g_fun s') = f_status (g_fun s) -> length (f_st (g_fun s')) = n ->
  (forall j, j <> i -> nth_error (b_st (g_bar s')) j = nth_error (b_st (g_bar s)) j
                    \/ nth_error (b_st (g_bar s')) j = option_map b_wake (nth_error (b_st (g_bar s)) j)) ->
  (forall j, j <> i -> nth_error (f_st (g_fun s')) j = nth_error (f_st (g_fun s)) j) ->
  (forall bs fs, nth_error (b_st (g_bar s')) i = Some bs -> nth_error (f_st (g_fun s')) i = Some fs ->
     (forall k, wk s k -> wk s' k) -> tcoh (f_status (g_fun s)) (g_status s) (g_version s) (wk s') t' bs fs) ->
  ginv s'.
Proof.
  intros G H Ht Hneg Hfoot Hs Hv Ho Ha Hb Hc Hf Hfs Hfl Ob Of New.
  assert (Ag : forall v, agreed s v -> agreed s' v).
  { intros v A u Iu P. rewrite Ht in Iu. apply in_set in Iu. destruct Iu as [->|Iu]; [rewrite Hneg in *|]; apply A; try assumption.
    eapply nth_error_In; exact H. }
  assert (Ch : forall v, chosen s v -> chosen s' v) by (unfold chosen; rewrite Ho; auto).
  assert (Wk : forall k, wk s k -> wk s' k).
  { intros k. unfold wk. rewrite Hs, Hv. destruct k as [| |v| | |[| |]]; try tauto; intros W; decompose [and] W; repeat split; auto; try apply Ch; auto; apply Ag; auto. }
  constructor.
  - rewrite Ht, set_nth_length. apply (gi_len s G).
  - exact Hfl.
  - exact Hb.
  - exact Hf.
  - rewrite Hfs. intros X. apply Hc, (gi_compl s G), X.
  - pose proof (gi_glob s G) as X. unfold glob in *. rewrite Hfs, Hs, Hv. destruct (f_status (g_fun s)); auto. destruct X as [X|[X Y]]; auto.
  - rewrite Hv. apply (gi_low s G).
  - intros u Iu P. rewrite Ht in Iu. apply in_set in Iu. apply Ch. destruct Iu as [->|Iu]; [rewrite Hneg in *|]; apply (gi_neg s G); try assumption.
    eapply nth_error_In; exact H.
  - intros u Iu. rewrite Ht in Iu. apply in_set in Iu. unfold foot in *. rewrite Hv. destruct Iu as [->|Iu]; [exact Hfoot|exact (gi_foot s G u Iu)].
  - intros j u bs fs Hu Hbs Hfs'. rewrite Hfs, Hs, Hv. rewrite Ht in Hu. apply nth_set in Hu. destruct Hu as [[<- ->]|[N Hu]].
    + exact (New bs fs Hbs Hfs' Wk).
    + rewrite Of in Hfs' by congruence. destruct (Ob j (not_eq_sym N)) as [E|E]; rewrite E in Hbs.
      * eapply tcoh_w; [exact (gi_thr s G j u bs fs Hu Hbs Hfs')|auto].
      * destruct (nth_error (b_st (g_bar s)) j) as [b0|] eqn:B0; [|discriminate Hbs]. injection Hbs as <-.
        apply tcoh_bw. eapply tcoh_w; [exact (gi_thr s G j u b0 fs Hu B0 Hfs')|auto].
Qed.

(** The same, when barrier and funnel stay as they are. *)
Lemma ginv_local s s' i t t' : ginv s -> nth_error (g_thr s) i = Some t ->
  g_thr s' = set_nth (g_thr s) i t' -> n_neg t' = n_neg t -> foot s t' ->
  g_status s' = g_status s -> g_version s' = g_version s -> g_offers s' = g_offers s ->
  (g_abort s <> VERSION_MISMATCH -> g_abort s' <> VERSION_MISMATCH) ->
  g_bar s' = g_bar s -> g_fun s' = g_fun s ->
  (forall bs fs, nth_error (b_st (g_bar s)) i = Some bs -> nth_error (f_st (g_fun s)) i = Some fs ->
     tcoh (f_status (g_fun s)) (g_status s) (g_version s) (wk s) t bs fs ->
     (forall k, wk s k -> wk s' k) -> tcoh (f_status (g_fun s)) (g_status s) (g_version s) (wk s') t' bs fs) ->
  ginv s'.
Proof.
  intros G H Ht Hneg Hfoot Hs Hv Ho Ha Hb Hf New.
  eapply (ginv_keep s s' i t t'); try eassumption; rewrite ?Hb, ?Hf; auto.
  - apply (gi_bar s G).
  - apply (gi_fun s G).
  - apply (gi_flen s G).
  - intros bs fs Hbs Hfs Wk. apply New; auto. apply (gi_thr s G i t bs fs); assumption.
Qed.

Lemma foot_at s t p a : foot s t -> foot s (at_pc_aborted t p a).
Proof. exact (fun H => H). Qed.

End I.
