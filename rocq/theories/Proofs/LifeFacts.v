(** Proofs about the life of a Sender or Receiver object. *)
From Coq Require Import ZArith Lia List Bool Arith.
Import ListNotations.
From Verif Require Import Model.Life Spec.LifeSpec.
Local Open Scope nat_scope.

Lemma set_cases {A} (l : list A) : forall i x j y, nth_error (set_nth l i x) j = Some y ->
  (j = i /\ y = x) \/ (j <> i /\ nth_error l j = Some y).
Proof.
  induction l as [|a l IH]; intros [|i] x [|j] y H; cbn in H; try discriminate.
  - injection H as <-. left. split; reflexivity.
  - right. split; [discriminate|exact H].
  - right. split; [discriminate|exact H].
  - destruct (IH _ _ _ _ H) as [[-> ->]|[Hn Hy]]; [left; split; reflexivity|right; split; [congruence|exact Hy]].
Qed.
Lemma set_length {A} (l : list A) : forall i x, length (set_nth l i x) = length l.
Proof. induction l as [|a l IH]; intros [|i] x; cbn; [reflexivity..|rewrite IH; reflexivity]. Qed.
Lemma set_same {A} (l : list A) : forall i x y, nth_error l i = Some y -> nth_error (set_nth l i x) i = Some x.
Proof. induction l as [|a l IH]; intros [|i] x y H; cbn in *; try discriminate; [reflexivity|exact (IH _ _ _ H)]. Qed.
Lemma set_other {A} (l : list A) : forall i x j, j <> i -> nth_error (set_nth l i x) j = nth_error l j.
Proof. induction l as [|a l IH]; intros [|i] x [|j] H; cbn; try reflexivity; [congruence|]. apply IH. congruence. Qed.

(** ** What is going on, behind the scenes *)
Inductive gh :=
| GFresh | GSet (c : nat) | GMake (c : nat) | GDir (c : nat) | GDirJoin (c : nat) | GWork (c k : nat) | GProg (c : nat)
| GRunning (h : option nat) | GJoin (c k : nat) | GJDir (c : nat) | GJSet (c : nat) | GJProg (c : nat)
| GOver (h : option nat).
Definition g_cur (g : gh) : option (nat * pc) :=
  match g with
  | GFresh => None | GSet c => Some (c, SSet) | GMake c => Some (c, SMake) | GDir c => Some (c, SDir)
  | GDirJoin c => Some (c, SDirJoin) | GWork c k => Some (c, SWork k) | GProg c => Some (c, SProg)
  | GRunning (Some c) | GOver (Some c) => Some (c, FRead) | GRunning None | GOver None => None
  | GJoin c k => Some (c, FWork k) | GJDir c => Some (c, FDir) | GJSet c => Some (c, FSet) | GJProg c => Some (c, FProg)
  end.
Definition g_lock (g : gh) : option nat :=
  match g with
  | GRunning h | GOver h => h
  | GJoin c _ | GJDir c | GJSet c | GJProg c => Some c
  | _ => None
  end.
Inductive cls := K0 | KA | KJ.
Definition has (k : cls) (t : th) : Prop :=
  match k with K0 => t = TNone | KA => t = TRun \/ t = TPast \/ t = TDone | KJ => t = TJoined end.
Definition g_work (g : gh) (i : nat) : cls :=
  match g with
  | GFresh | GSet _ | GMake _ | GDir _ | GDirJoin _ => K0
  | GWork _ k => if i <? k then KA else K0
  | GProg _ | GRunning _ => KA
  | GJoin _ k => if i <? k then KJ else KA
  | _ => KJ
  end.
Definition g_len (cfg : lcfg) (g : gh) : nat :=
  match g with GFresh | GMake _ => if lc_recv cfg then lc_n cfg else 0 | _ => lc_n cfg end.
Definition g_dir (cfg : lcfg) (g : gh) : cls :=
  if lc_recv cfg then K0
  else match g with
       | GFresh | GSet _ | GMake _ | GDir _ => K0
       | GDirJoin _ => KA
       | GWork _ _ | GProg _ | GRunning _ | GJoin _ _ => if lc_two cfg then KJ else KA
       | GJDir _ => KA
       | _ => KJ
       end.
Definition g_prog (cfg : lcfg) (g : gh) : cls :=
  if lc_prog cfg then
    match g with
    | GRunning _ | GJoin _ _ | GJDir _ | GJSet _ | GJProg _ => KA
    | GOver _ => KJ
    | _ => K0
    end
  else K0.
Definition g_st (g : gh) (s : status) : Prop :=
  match g with
  | GFresh | GSet _ => s = NotStarted
  | GJProg _ | GOver _ => s = ThreadsJoined
  | _ => s = Ongoing \/ s = Finished
  end.
Definition g_ok (g : gh) : nat :=
  match g with
  | GFresh | GSet _ | GMake _ | GDir _ | GDirJoin _ | GWork _ _ | GProg _ => 0
  | _ => 1
  end.
Definition g_cfg (cfg : lcfg) (g : gh) : Prop :=
  match g with
  | GSet _ => lc_recv cfg = true
  | GMake _ | GDir _ => lc_recv cfg = false
  | GDirJoin _ => lc_recv cfg = false /\ lc_two cfg = true
  | GWork _ k | GJoin _ k => k <= lc_n cfg
  | GJDir _ => lc_recv cfg = false /\ lc_two cfg = false
  | _ => True
  end.
Definition light (p : pc) : Prop := p = CIdle \/ p = SCheck \/ p = FLock.

Record G (cfg : lcfg) (g : gh) (l : life) : Prop := {
  G_pcs : forall c p, nth_error (lf_pcs l) c = Some p -> light p \/ g_cur g = Some (c, p);
  G_cur : forall c p, g_cur g = Some (c, p) -> nth_error (lf_pcs l) c = Some p;
  G_len : length (lf_work l) = g_len cfg g;
  G_work : forall i t, nth_error (lf_work l) i = Some t -> has (g_work g i) t;
  G_dir : has (g_dir cfg g) (lf_dir l) /\ lf_dir l <> TPast;
  G_prog : has (g_prog cfg g) (lf_prog l) /\ lf_prog l <> TPast;
  G_st : g_st g (lf_st l);
  G_lock : lf_lock l = g_lock g;
  G_ok : times is_ok (lf_log l) = g_ok g;
  G_first : times is_first (lf_log l) = match g with GOver _ => 1 | _ => 0 end;
  G_rep : forall c r, In (c, r) (lf_log l) -> is_report r = true -> exists h, g = GOver h;
  G_not : times is_not (lf_log l) = 0;
  G_fresh : g = GFresh -> lf_log l = [];
  G_fl : forall c, nth_error (lf_pcs l) c = Some FLock -> g_ok g = 1;
  G_sc : lc_recv cfg = true -> forall c, nth_error (lf_pcs l) c = Some SCheck ->
    g = GFresh /\ forall c' p, nth_error (lf_pcs l) c' = Some p -> c' = c \/ p = CIdle;
  G_c : g_cfg cfg g
}.

Lemma G_new cfg n : G cfg GFresh (lf_new cfg n).
Proof.
  constructor; cbn; try reflexivity; try discriminate; try contradiction.
  - intros c p H. apply nth_error_In, repeat_spec in H. subst. left. left. reflexivity.
  - destruct (lc_recv cfg); [apply repeat_length|reflexivity].
  - intros i t H. destruct (lc_recv cfg); [|destruct i; discriminate]. apply nth_error_In, repeat_spec in H. exact H.
  - unfold g_dir. destruct (lc_recv cfg); split; try reflexivity; discriminate.
  - unfold g_prog. destruct (lc_prog cfg); split; try reflexivity; discriminate.
  - intros c H. apply nth_error_In, repeat_spec in H. discriminate.
  - intros _ c H. apply nth_error_In, repeat_spec in H. discriminate.
Qed.

Lemma times_cons f c r log : times f ((c, r) :: log) = (if f r then 1 else 0) + times f log.
Proof. unfold times. cbn. destruct (f r); reflexivity. Qed.
Lemma ok_in log : (exists c, In (c, RStart OK) log) -> times is_ok log <> 0.
Proof.
  intros [c H]. unfold times. intros E. apply length_zero_iff_nil in E.
  assert (In (c, RStart OK) []) by (rewrite <- E; apply filter_In; split; [exact H|reflexivity]). contradiction.
Qed.

Lemma G_mk cfg g g' l l' c p q : G cfg g l -> nth_error (lf_pcs l) c = Some p -> p <> CIdle ->
  (g_cur g = Some (c, p) \/ g_cur g = None) ->
  (g_cur g' = Some (c, q) \/ (g_cur g' = None /\ q = CIdle)) -> q <> FLock -> q <> SCheck ->
  g_ok g <= g_ok g' ->
  lf_pcs l' = set_nth (lf_pcs l) c q ->
  length (lf_work l') = g_len cfg g' ->
  (forall i t, nth_error (lf_work l') i = Some t -> has (g_work g' i) t) ->
  (has (g_dir cfg g') (lf_dir l') /\ lf_dir l' <> TPast) ->
  (has (g_prog cfg g') (lf_prog l') /\ lf_prog l' <> TPast) ->
  g_st g' (lf_st l') -> lf_lock l' = g_lock g' ->
  times is_ok (lf_log l') = g_ok g' ->
  times is_first (lf_log l') = match g' with GOver _ => 1 | _ => 0 end ->
  (forall c r, In (c, r) (lf_log l') -> is_report r = true -> exists h, g' = GOver h) ->
  times is_not (lf_log l') = 0 -> g' <> GFresh -> g_cfg cfg g' -> G cfg g' l'.
Proof.
  intros HG Hc Hp Hcur Hcur' Hq1 Hq2 Hok Epcs. intros. constructor; try assumption; rewrite ?Epcs.
  - intros c' p' H'. apply set_cases in H'. destruct H' as [[-> ->]|[Hne H']].
    + destruct Hcur' as [E|[E ->]]; [right; exact E|left; left; reflexivity].
    + destruct (G_pcs _ _ _ HG _ _ H') as [Hl|Hl]; [left; exact Hl|].
      exfalso. destruct Hcur as [E|E]; rewrite E in Hl; [injection Hl as -> ->; congruence|discriminate].
  - intros c' p' H'. destruct Hcur' as [E|[E ->]]; rewrite E in H'; [|discriminate].
    injection H' as -> <-. exact (set_same _ _ _ _ Hc).
  - intros E. congruence.
  - intros c' H'. apply set_cases in H'. destruct H' as [[-> E]|[Hne H']]; [congruence|].
    pose proof (G_fl _ _ _ HG _ H'). destruct g'; cbn in *; lia.
  - intros Hr c' H'. apply set_cases in H'. destruct H' as [[-> E]|[Hne H']]; [congruence|].
    destruct (G_sc _ _ _ HG Hr _ H') as [_ Ho]. destruct (Ho _ _ Hc); congruence.
Qed.

Lemma G_start cfg g l c : G cfg g l -> nth_error (lf_pcs l) c = Some CIdle -> polite cfg l (MStart c) ->
  G cfg g (w_pc l c SCheck).
Proof.
  intros HG Hc Hp. destruct HG as [a1 a2 a3 a4 a5 a6 a7 a8 a9 a10 a11 a12 a13 a14 a15 a16]. constructor; cbn [w_pc lf_pcs lf_work lf_dir lf_prog lf_st lf_lock lf_log]; try assumption.
  - intros c' p' H'. apply set_cases in H'. destruct H' as [[-> ->]|[Hne H']]; [left; right; left; reflexivity|exact (a1 _ _ H')].
  - intros c' p' H'. pose proof (a2 _ _ H') as H2. rewrite set_other; [exact H2|]. intros ->.
    rewrite Hc in H2. injection H2 as <-. destruct g as [| | | | | | |[]| | | | |[]]; discriminate.
  - intros c' H'. apply set_cases in H'. destruct H' as [[-> E]|[Hne H']]; [discriminate|exact (a14 _ H')].
  - intros Hr c' H'. destruct (Hp Hr) as [El Hi]. apply set_cases in H'. destruct H' as [[-> _]|[Hne H']].
    + split.
      * rewrite El in a9. destruct (g_cur g) as [[c1 p1]|] eqn:Ec.
        { pose proof (a2 _ _ eq_refl) as H2. apply Hi in H2. subst. destruct g as [| | | | | | |[]| | | | |[]]; discriminate. }
        destruct g as [| | | | | | |[]| | | | |[]]; try discriminate; reflexivity.
      * intros c' p' H'. apply set_cases in H'. destruct H' as [[-> _]|[_ H']]; [left; reflexivity|right; exact (Hi _ _ H')].
    + apply Hi in H'. discriminate.
Qed.
Lemma G_finish cfg g l c : G cfg g l -> nth_error (lf_pcs l) c = Some CIdle -> polite cfg l (MFinish c) ->
  G cfg g (w_pc l c FLock).
Proof.
  intros HG Hc Hp. destruct HG as [a1 a2 a3 a4 a5 a6 a7 a8 a9 a10 a11 a12 a13 a14 a15 a16].
  apply ok_in in Hp. rewrite a9 in Hp.
  constructor; cbn [w_pc lf_pcs lf_work lf_dir lf_prog lf_st lf_lock lf_log]; try assumption.
  - intros c' p' H'. apply set_cases in H'. destruct H' as [[-> ->]|[Hne H']]; [left; right; right; reflexivity|exact (a1 _ _ H')].
  - intros c' p' H'. pose proof (a2 _ _ H') as H2. rewrite set_other; [exact H2|]. intros ->.
    rewrite Hc in H2. injection H2 as <-. destruct g as [| | | | | | |[]| | | | |[]]; discriminate.
  - intros c' H'. destruct g; cbn in *; congruence.
  - intros Hr c' H'. apply set_cases in H'. destruct H' as [[-> E]|[Hne H']]; [discriminate|].
    destruct (a15 Hr _ H') as [-> _]. cbn in Hp. congruence.
Qed.

Lemma G_threads cfg g l w d p s : G cfg g l -> length w = length (lf_work l) ->
  (forall i t, nth_error w i = Some t -> has (g_work g i) t) ->
  has (g_dir cfg g) d -> d <> TPast -> has (g_prog cfg g) p -> p <> TPast -> g_st g s ->
  G cfg g {| lf_st := s; lf_work := w; lf_dir := d; lf_prog := p; lf_lock := lf_lock l; lf_pcs := lf_pcs l; lf_log := lf_log l |}.
Proof.
  intros HG. intros. destruct HG. constructor; cbn; try assumption; try split; try assumption. congruence.
Qed.

Lemma has_set w g i t t' : (forall i t, nth_error w i = Some t -> has (g_work g i) t) ->
  nth_error w i = Some t -> (has (g_work g i) t -> has (g_work g i) t') ->
  forall j x, nth_error (set_nth w i t') j = Some x -> has (g_work g j) x.
Proof.
  intros H Hi Ht j x Hx. apply set_cases in Hx. destruct Hx as [[-> ->]|[_ Hx]]; [apply Ht, (H _ _ Hi)|exact (H _ _ Hx)].
Qed.

(** The moves of the threads. *)
Lemma G_past cfg g l i l' : G cfg g l -> lmove cfg l (MPast i) = Some (Ret l') -> G cfg g l' /\ stage (lf_st l) <= stage (lf_st l').
Proof.
  intros HG H. cbn [lmove] in H. destruct (nth_error (lf_work l) i) as [[]|] eqn:E; try discriminate.
  assert (HK : g_work g i = KA) by (pose proof (G_work _ _ _ HG _ _ E) as A; destruct (g_work g i); cbn in A; congruence).
  assert (HS : lf_st l = Ongoing \/ lf_st l = Finished).
  { pose proof (G_st _ _ _ HG) as A. destruct g; cbn in HK, A; try discriminate; try exact A. }
  assert (HS' : g_st g Finished) by (destruct g; cbn in HK |- *; try discriminate; right; reflexivity).
  injection H as <-. split.
  - destruct (forallb past _); apply (G_threads cfg g l); try apply HG; try assumption; try apply set_length;
      eapply has_set; try apply HG; try eassumption; rewrite HK; cbn; auto.
  - destruct (forallb past _); cbn; destruct HS as [-> | ->]; cbn; lia.
Qed.
Lemma G_done cfg g l i l' : G cfg g l -> lmove cfg l (MDone i) = Some (Ret l') -> G cfg g l' /\ stage (lf_st l) <= stage (lf_st l').
Proof.
  intros HG H. cbn [lmove] in H. destruct (nth_error (lf_work l) i) as [[]|] eqn:E; try discriminate.
  assert (HK : g_work g i = KA) by (pose proof (G_work _ _ _ HG _ _ E) as A; destruct (g_work g i); cbn in A; congruence).
  injection H as <-. split; [|cbn; lia]. apply (G_threads cfg g l); try apply HG; try apply set_length.
  eapply has_set; try apply HG; try eassumption. rewrite HK. cbn. auto.
Qed.
Lemma G_mdir cfg g l l' : G cfg g l -> lmove cfg l MDir = Some (Ret l') -> G cfg g l' /\ stage (lf_st l) <= stage (lf_st l').
Proof.
  intros HG H. cbn [lmove] in H. destruct (G_dir _ _ _ HG) as [A _]. destruct (lf_dir l) eqn:E; try discriminate.
  injection H as <-. split; [|cbn; lia]. apply (G_threads cfg g l); try apply HG; try discriminate; try reflexivity.
  destruct (g_dir cfg g); cbn in A |- *; try congruence; auto.
Qed.
Lemma G_mprog cfg g l l' : G cfg g l -> lmove cfg l MProg = Some (Ret l') -> G cfg g l' /\ stage (lf_st l) <= stage (lf_st l').
Proof.
  intros HG H. cbn [lmove] in H. destruct (G_prog _ _ _ HG) as [A _]. destruct (lf_prog l) eqn:E; try discriminate.
  assert (l' = w_prog l TDone) as ->.
  { destruct (lf_st l); try (destruct (lc_early cfg); [|discriminate]); injection H as <-; reflexivity. }
  split; [|cbn; lia]. apply (G_threads cfg g l); try apply HG; try discriminate; try reflexivity.
  destruct (g_prog cfg g); cbn in A |- *; try congruence; auto.
Qed.

Lemma G_already cfg g l c p e : G cfg g l -> nth_error (lf_pcs l) c = Some p -> light p -> g <> GFresh -> is_ok (RStart e) = false ->
  G cfg g (w_ret l c (RStart e)).
Proof.
  intros HG Hc Hp Hg He. destruct HG as [a1 a2 a3 a4 a5 a6 a7 a8 a9 a10 a11 a12 a13 a14 a15 a16].
  constructor; cbn [w_ret lf_pcs lf_work lf_dir lf_prog lf_st lf_lock lf_log]; try assumption;
    try (rewrite times_cons, ?He; cbn; assumption); try congruence.
  - intros c' p' H'. apply set_cases in H'. destruct H' as [[-> ->]|[Hne H']]; [left; left; reflexivity|exact (a1 _ _ H')].
  - intros c' p' H'. pose proof (a2 _ _ H') as H2. rewrite set_other; [exact H2|]. intros ->.
    rewrite Hc in H2. injection H2 as ->. destruct g as [| | | | | | |[]| | | | |[]]; cbn in H'; try discriminate;
      injection H' as <- <-; destruct Hp as [H|[H|H]]; discriminate.
  - intros c' r [E|H] Hr; [injection E as <- <-; discriminate|exact (a11 _ _ H Hr)].
  - intros c' H'. apply set_cases in H'. destruct H' as [[-> E]|[Hne H']]; [discriminate|exact (a14 _ H')].
  - intros Hr c' H'. apply set_cases in H'. destruct H' as [[-> E]|[Hne H']]; [discriminate|].
    destruct (a15 Hr _ H') as [-> _]. congruence.
Qed.

Ltac heavy HG Hc :=
  let A := fresh "A" in
  destruct (G_pcs _ _ _ HG _ _ Hc) as [[A|[A|A]]|A]; try discriminate A;
  match type of HG with G _ ?g _ =>
    destruct g as [| | | | | | |[]| | | | |[]]; cbn [g_cur] in A; try discriminate A; injection A; clear A; intros; subst
  end.
Ltac mkg g' := eexists; exists g'; split; [reflexivity|]; split.

Lemma G_go cfg g l c p r : G cfg g l -> nth_error (lf_pcs l) c = Some p -> caller_step cfg l c p = Some r ->
  exists l' g', r = Ret l' /\ G cfg g' l' /\ stage (lf_st l) <= stage (lf_st l').
Proof.
  intros HG Hc H. destruct p; cbn [caller_step] in H.
  - discriminate.
  - (* SCheck *)
    destruct (lc_recv cfg) eqn:Hr.
    + destruct (G_sc _ _ _ HG Hr _ Hc) as [-> Ho]. pose proof (G_st _ _ _ HG) as Es. cbn in Es. rewrite Es in H.
      injection H as <-. mkg (GSet c); [|cbn; lia].
      destruct HG as [a1 a2 a3 a4 a5 a6 a7 a8 a9 a10 a11 a12 a13 a14 a15 a16].
      eapply G_mk with (g := GFresh) (c := c) (q := SSet); try eassumption; try discriminate; try reflexivity; auto.
      * constructor; assumption.
      * cbn in a3 |- *. rewrite Hr in a3. exact a3.
      * intros c' r' Hi. cbn in Hi. rewrite (a13 eq_refl) in Hi. contradiction.
    + destruct (lf_st l) eqn:Es.
      * injection H as <-. pose proof (G_st _ _ _ HG) as A. rewrite Es in A. pose proof (G_c _ _ _ HG) as C.
        destruct g; cbn in A, C; try discriminate; try (destruct A; discriminate); try congruence.
        mkg (GMake c); [|cbn; lia].
        destruct HG as [a1 a2 a3 a4 a5 a6 a7 a8 a9 a10 a11 a12 a13 a14 a15 a16].
        eapply G_mk with (g := GFresh) (c := c) (q := SMake); try eassumption; try discriminate; try reflexivity; auto.
        { constructor; assumption. }
        { cbn. auto. }
        { intros c' r' Hi. cbn in Hi. rewrite (a13 eq_refl) in Hi. contradiction. }
      * injection H as <-. eexists. exists g. split; [reflexivity|]. split; [|cbn; rewrite ?Es; cbn; lia].
        eapply G_already; try eassumption; [right; left; reflexivity| |reflexivity].
        intros ->. pose proof (G_st _ _ _ HG) as A. cbn in A. congruence.
      * injection H as <-. eexists. exists g. split; [reflexivity|]. split; [|cbn; rewrite ?Es; cbn; lia].
        eapply G_already; try eassumption; [right; left; reflexivity| |reflexivity].
        intros ->. pose proof (G_st _ _ _ HG) as A. cbn in A. congruence.
      * injection H as <-. eexists. exists g. split; [reflexivity|]. split; [|cbn; rewrite ?Es; cbn; lia].
        eapply G_already; try eassumption; [right; left; reflexivity| |reflexivity].
        intros ->. pose proof (G_st _ _ _ HG) as A. cbn in A. congruence.
  - (* SSet *)
    heavy HG Hc. injection H as <-. pose proof (G_st _ _ _ HG) as Es. cbn in Es.
    mkg (GWork c 0); [|rewrite Es; cbn; lia].
    pose proof HG as [a1 a2 a3 a4 a5 a6 a7 a8 a9 a10 a11 a12 a13 a14 a15 a16]. cbn in a16.
    eapply G_mk with (g := GSet c) (c := c) (q := SWork 0); try eassumption; try discriminate; try reflexivity; auto.
    + unfold g_dir in *. rewrite a16 in *. exact a5.
    + cbn. auto.
    + intros c' r' Hi Hr'. destruct (a11 _ _ Hi Hr') as [h E]. discriminate.
    + cbn. lia.
  - (* SMake *)
    heavy HG Hc. injection H as <-. mkg (GDir c); [|cbn; lia].
    pose proof HG as [a1 a2 a3 a4 a5 a6 a7 a8 a9 a10 a11 a12 a13 a14 a15 a16]. cbn in a16.
    eapply G_mk with (g := GMake c) (c := c) (q := SDir); try eassumption; try discriminate; try reflexivity; auto.
    + cbn. apply repeat_length.
    + intros i t Hi. apply nth_error_In, repeat_spec in Hi. exact Hi.
    + intros c' r' Hi Hr'. destruct (a11 _ _ Hi Hr') as [h E]. discriminate.
  - (* SDir *)
    heavy HG Hc. pose proof HG as [a1 a2 a3 a4 a5 a6 a7 a8 a9 a10 a11 a12 a13 a14 a15 a16]. cbn in a16.
    destruct a5 as [a5 _]. unfold g_dir in a5. rewrite a16 in a5. cbn in a5. rewrite a5 in H. cbn in H. injection H as <-.
    destruct (lc_two cfg) eqn:Et.
    + mkg (GDirJoin c); [|cbn; lia].
      eapply G_mk with (g := GDir c) (c := c) (q := SDirJoin); try eassumption; try discriminate; try reflexivity; auto.
      * unfold g_dir. rewrite a16. cbn. split; [auto|discriminate].
      * intros c' r' Hi Hr'. destruct (a11 _ _ Hi Hr') as [h E]. discriminate.
      * cbn. auto.
    + mkg (GWork c 0); [|cbn; lia].
      eapply G_mk with (g := GDir c) (c := c) (q := SWork 0); try eassumption; try discriminate; try reflexivity; auto.
      * unfold g_dir. rewrite a16, Et. cbn. split; [auto|discriminate].
      * intros c' r' Hi Hr'. destruct (a11 _ _ Hi Hr') as [h E]. discriminate.
      * cbn. lia.
  - (* SDirJoin *)
    heavy HG Hc. pose proof HG as [a1 a2 a3 a4 a5 a6 a7 a8 a9 a10 a11 a12 a13 a14 a15 a16]. cbn in a16. destruct a16 as [Hr Ht].
    destruct a5 as [a5 a5']. unfold g_dir in a5. rewrite Hr in a5. cbn in a5.
    destruct a5 as [E|[E|E]]; rewrite E in H; cbn in H; try discriminate. injection H as <-.
    mkg (GWork c 0); [|cbn; lia].
    eapply G_mk with (g := GDirJoin c) (c := c) (q := SWork 0); try eassumption; try discriminate; try reflexivity; auto.
    + unfold g_dir. rewrite Hr, Ht. cbn. split; [auto|discriminate].
    + intros c' r' Hi Hr'. destruct (a11 _ _ Hi Hr') as [h E']. discriminate.
    + cbn. lia.
  - (* SWork *)
    heavy HG Hc. pose proof HG as [a1 a2 a3 a4 a5 a6 a7 a8 a9 a10 a11 a12 a13 a14 a15 a16]. cbn in a3, a16.
    destruct (nth_error (lf_work l) k) as [t|] eqn:Ek.
    + pose proof (a4 _ _ Ek) as A. cbn [g_work] in A. rewrite Nat.ltb_irrefl in A. cbn in A. subst t. injection H as <-.
      assert (k < lc_n cfg) by (rewrite <- a3; apply nth_error_Some; congruence).
      mkg (GWork c (S k)); [|cbn; lia].
      eapply G_mk with (g := GWork c k) (c := c) (q := SWork (S k)); try eassumption; try discriminate; try reflexivity; auto.
      * cbn. rewrite set_length. exact a3.
      * cbn [w_pc w_work lf_work]. intros i t Hi. apply set_cases in Hi. cbn [g_work]. destruct Hi as [[-> ->]|[Hne Hi]].
        { replace (k <? S k) with true by (symmetry; apply Nat.ltb_lt; lia). cbn. auto. }
        { pose proof (a4 _ _ Hi) as A. cbn [g_work] in A. destruct (i <? k) eqn:E1.
          - apply Nat.ltb_lt in E1. replace (i <? S k) with true by (symmetry; apply Nat.ltb_lt; lia). exact A.
          - apply Nat.ltb_ge in E1. replace (i <? S k) with false by (symmetry; apply Nat.ltb_ge; lia). exact A. }
      * intros c' r' Hi Hr'. destruct (a11 _ _ Hi Hr') as [h E']. discriminate.
    + injection H as <-. apply nth_error_None in Ek. mkg (GProg c); [|cbn; lia].
      eapply G_mk with (g := GWork c k) (c := c) (q := SProg); try eassumption; try discriminate; try reflexivity; auto.
      * cbn [w_pc lf_work]. intros i t Hi. pose proof (a4 _ _ Hi) as A. cbn [g_work] in A.
        assert (i < length (lf_work l)) by (apply nth_error_Some; congruence).
        replace (i <? k) with true in A by (symmetry; apply Nat.ltb_lt; lia). exact A.
      * intros c' r' Hi Hr'. destruct (a11 _ _ Hi Hr') as [h E']. discriminate.
  - (* SProg *)
    heavy HG Hc. pose proof HG as [a1 a2 a3 a4 a5 a6 a7 a8 a9 a10 a11 a12 a13 a14 a15 a16]. cbn in a3, a9, a10.
    assert (HR : forall c' r', In (c', r') ((c, RStart OK) :: lf_log l) -> is_report r' = true -> exists h, GRunning None = GOver h).
    { intros c' r' [Hi|Hi] Hr'; [injection Hi as <- <-; discriminate|]. destruct (a11 _ _ Hi Hr') as [h E']. discriminate. }
    destruct (lc_prog cfg) eqn:Ep.
    + destruct a6 as [a6 _]. unfold g_prog in a6. rewrite Ep in a6. cbn in a6. rewrite a6 in H. cbn in H. injection H as <-.
      mkg (GRunning None); [|cbn; lia].
      eapply G_mk with (g := GProg c) (c := c) (q := CIdle); try eassumption; try discriminate; try reflexivity; auto.
      all: try solve [cbn; lia | unfold g_prog; rewrite Ep; cbn; split; [auto|discriminate]
                     |cbn [w_ret lf_log w_prog]; rewrite times_cons, ?a9, ?a10, ?a12; reflexivity].
    + injection H as <-. mkg (GRunning None); [|cbn; lia].
      eapply G_mk with (g := GProg c) (c := c) (q := CIdle); try eassumption; try discriminate; try reflexivity; auto.
      all: try solve [cbn; lia | unfold g_prog in *; rewrite Ep in *; exact a6
                     |cbn [w_ret lf_log w_prog]; rewrite times_cons, ?a9, ?a10, ?a12; reflexivity].
  - (* FLock *)
    pose proof HG as [a1 a2 a3 a4 a5 a6 a7 a8 a9 a10 a11 a12 a13 a14 a15 a16]. pose proof (a14 _ Hc) as Hok.
    destruct (lf_lock l) eqn:El; [discriminate|]. injection H as <-.
    destruct g as [| | | | | | |[]| | | | |[]]; cbn in Hok; try discriminate; cbn in a8; try discriminate.
    + mkg (GRunning (Some c)); [|cbn; lia].
      eapply G_mk with (g := GRunning None) (c := c) (q := FRead); try eassumption; try discriminate; try reflexivity; auto.
      intros c' r' Hi Hr'. destruct (a11 _ _ Hi Hr') as [h E']. discriminate.
    + mkg (GOver (Some c)); [|cbn; lia].
      eapply G_mk with (g := GOver None) (c := c) (q := FRead); try eassumption; try discriminate; try reflexivity; auto.
      intros. eexists. reflexivity.
  - (* FRead *)
    heavy HG Hc; pose proof HG as [a1 a2 a3 a4 a5 a6 a7 a8 a9 a10 a11 a12 a13 a14 a15 a16]; cbn in a7.
    + assert (r = Ret (w_pc l c (FWork 0))) as -> by (destruct a7 as [E|E]; rewrite E in H; congruence).
      mkg (GJoin c 0); [|cbn; lia].
      eapply G_mk with (g := GRunning (Some c)) (c := c) (q := FWork 0); try eassumption; try discriminate; try reflexivity; auto.
      * intros c' r' Hi Hr'. destruct (a11 _ _ Hi Hr') as [h E']. discriminate.
      * cbn. lia.
    + rewrite a7 in H. injection H as <-. mkg (GOver None); [|cbn; rewrite ?a7; cbn; lia]. cbn in a9, a10.
      eapply G_mk with (g := GOver (Some c)) (c := c) (q := CIdle); try eassumption; try discriminate; try reflexivity; auto.
      all: try solve [cbn; lia | intros; eexists; reflexivity
                     |cbn [w_ret lf_log w_lock]; rewrite times_cons, ?a9, ?a10, ?a12; reflexivity].
  - (* FWork *)
    heavy HG Hc. pose proof HG as [a1 a2 a3 a4 a5 a6 a7 a8 a9 a10 a11 a12 a13 a14 a15 a16]. cbn in a3, a16.
    destruct (nth_error (lf_work l) k) as [t|] eqn:Ek.
    + pose proof (a4 _ _ Ek) as A. cbn [g_work] in A. rewrite Nat.ltb_irrefl in A. cbn in A.
      destruct A as [E|[E|E]]; subst t; cbn in H; try discriminate. injection H as <-.
      assert (k < lc_n cfg) by (rewrite <- a3; apply nth_error_Some; congruence).
      mkg (GJoin c (S k)); [|cbn; lia].
      eapply G_mk with (g := GJoin c k) (c := c) (q := FWork (S k)); try eassumption; try discriminate; try reflexivity; auto.
      * cbn. rewrite set_length. exact a3.
      * cbn [w_pc w_work lf_work]. intros i t Hi. apply set_cases in Hi. cbn [g_work]. destruct Hi as [[-> ->]|[Hne Hi]].
        { replace (k <? S k) with true by (symmetry; apply Nat.ltb_lt; lia). cbn. auto. }
        { pose proof (a4 _ _ Hi) as A. cbn [g_work] in A. destruct (i <? k) eqn:E1.
          - apply Nat.ltb_lt in E1. replace (i <? S k) with true by (symmetry; apply Nat.ltb_lt; lia). exact A.
          - apply Nat.ltb_ge in E1. replace (i <? S k) with false by (symmetry; apply Nat.ltb_ge; lia). exact A. }
      * intros c' r' Hi Hr'. destruct (a11 _ _ Hi Hr') as [h E']. discriminate.
    + injection H as <-. apply nth_error_None in Ek.
      assert (HW : forall i t, nth_error (lf_work l) i = Some t -> t = TJoined).
      { intros i t Hi. pose proof (a4 _ _ Hi) as A. cbn [g_work] in A.
        assert (i < length (lf_work l)) by (apply nth_error_Some; congruence).
        replace (i <? k) with true in A by (symmetry; apply Nat.ltb_lt; lia). exact A. }
      destruct (lc_recv cfg || lc_two cfg) eqn:Ert.
      * mkg (GJSet c); [|cbn; lia].
        eapply G_mk with (g := GJoin c k) (c := c) (q := FSet); try eassumption; try discriminate; try reflexivity; auto.
        { unfold g_dir in *. destruct (lc_recv cfg); [exact a5|]. destruct (lc_two cfg); [exact a5|discriminate]. }
        { intros c' r' Hi Hr'. destruct (a11 _ _ Hi Hr') as [h E']. discriminate. }
      * mkg (GJDir c); [|cbn; lia]. apply orb_false_iff in Ert. destruct Ert as [Hr Ht].
        eapply G_mk with (g := GJoin c k) (c := c) (q := FDir); try eassumption; try discriminate; try reflexivity; auto.
        { unfold g_dir in *. rewrite Hr, Ht in *. exact a5. }
        { intros c' r' Hi Hr'. destruct (a11 _ _ Hi Hr') as [h E']. discriminate. }
        { cbn. auto. }
  - (* FDir *)
    heavy HG Hc. pose proof HG as [a1 a2 a3 a4 a5 a6 a7 a8 a9 a10 a11 a12 a13 a14 a15 a16]. cbn in a16. destruct a16 as [Hr Ht].
    destruct a5 as [a5 a5']. unfold g_dir in a5. rewrite Hr in a5. cbn in a5.
    destruct a5 as [E|[E|E]]; rewrite E in H; cbn in H; try discriminate. injection H as <-.
    mkg (GJSet c); [|cbn; lia].
    eapply G_mk with (g := GJDir c) (c := c) (q := FSet); try eassumption; try discriminate; try reflexivity; auto.
    + unfold g_dir. rewrite Hr. cbn. split; [auto|discriminate].
    + intros c' r' Hi Hr'. destruct (a11 _ _ Hi Hr') as [h E']. discriminate.
  - (* FSet *)
    heavy HG Hc. pose proof HG as [a1 a2 a3 a4 a5 a6 a7 a8 a9 a10 a11 a12 a13 a14 a15 a16]. injection H as <-.
    mkg (GJProg c); [|cbn; destruct a7 as [E|E]; rewrite E; cbn; lia].
    eapply G_mk with (g := GJSet c) (c := c) (q := FProg); try eassumption; try discriminate; try reflexivity; auto.
    intros c' r' Hi Hr'. destruct (a11 _ _ Hi Hr') as [h E']. discriminate.
  - (* FProg *)
    heavy HG Hc. pose proof HG as [a1 a2 a3 a4 a5 a6 a7 a8 a9 a10 a11 a12 a13 a14 a15 a16]. cbn in a9, a10.
    destruct (lc_prog cfg) eqn:Ep.
    + destruct a6 as [a6 a6']. unfold g_prog in a6. rewrite Ep in a6. cbn in a6.
      destruct a6 as [E|[E|E]]; rewrite E in H; cbn in H; try discriminate. injection H as <-.
      mkg (GOver None); [|cbn; lia].
      eapply G_mk with (g := GJProg c) (c := c) (q := CIdle); try eassumption; try discriminate; try reflexivity; auto.
      all: try solve [cbn; lia | unfold g_prog; rewrite Ep; cbn; split; [auto|discriminate] | intros; eexists; reflexivity
                     |cbn [w_ret lf_log w_prog w_lock]; rewrite times_cons, ?a9, ?a10, ?a12; reflexivity].
    + injection H as <-. mkg (GOver None); [|cbn; lia].
      eapply G_mk with (g := GJProg c) (c := c) (q := CIdle); try eassumption; try discriminate; try reflexivity; auto.
      all: try solve [cbn; lia | unfold g_prog in *; rewrite Ep in *; exact a6 | intros; eexists; reflexivity
                     |cbn [w_ret lf_log w_prog w_lock]; rewrite times_cons, ?a9, ?a10, ?a12; reflexivity].
Qed.

Lemma G_step cfg g l m r : G cfg g l -> polite cfg l m -> lmove cfg l m = Some r ->
  exists l' g', r = Ret l' /\ G cfg g' l' /\ stage (lf_st l) <= stage (lf_st l').
Proof.
  intros HG Hp H. assert (HT : forall l', r = Ret l' -> G cfg g l' /\ stage (lf_st l) <= stage (lf_st l') ->
    exists l' g', r = Ret l' /\ G cfg g' l' /\ stage (lf_st l) <= stage (lf_st l')).
  { intros l' E A. exists l', g. split; [exact E|exact A]. }
  destruct m as [c|c|c|i|i| |]; pose proof H as H0; cbn [lmove] in H0.
  - destruct (nth_error (lf_pcs l) c) as [[]|] eqn:Ec; try discriminate. injection H0 as <-.
    eapply HT; [reflexivity|]. split; [exact (G_start _ _ _ _ HG Ec Hp)|cbn; lia].
  - destruct (nth_error (lf_pcs l) c) as [[]|] eqn:Ec; try discriminate. injection H0 as <-.
    eapply HT; [reflexivity|]. split; [exact (G_finish _ _ _ _ HG Ec Hp)|cbn; lia].
  - destruct (nth_error (lf_pcs l) c) as [p|] eqn:Ec; [|discriminate]. exact (G_go _ _ _ _ _ _ HG Ec H0).
  - destruct (nth_error (lf_work l) i) as [[]|]; try discriminate. injection H0 as <-.
    eapply HT; [reflexivity|]. eapply G_past; eassumption.
  - destruct (nth_error (lf_work l) i) as [[]|]; try discriminate. injection H0 as <-.
    eapply HT; [reflexivity|]. eapply G_done; eassumption.
  - destruct (lf_dir l); try discriminate. injection H0 as <-. eapply HT; [reflexivity|]. eapply G_mdir; eassumption.
  - destruct (lf_prog l); try discriminate.
    assert (r = Ret (w_prog l TDone)) as -> by (destruct (lf_st l); try (destruct (lc_early cfg)); congruence).
    eapply HT; [reflexivity|]. eapply G_mprog; eassumption.
Qed.
Lemma G_reach cfg n l : reach cfg n true l -> exists g, G cfg g l.
Proof.
  induction 1 as [|l m l' H [g HG] Hp E]; [exists GFresh; apply G_new|].
  destruct (G_step _ _ _ _ _ HG (Hp eq_refl) E) as (l1 & g' & E1 & HG' & _). injection E1 as <-. exists g'. exact HG'.
Qed.

Lemma no_crash cfg n l m : reach cfg n true l -> polite cfg l m ->
  lmove cfg l m = None \/ exists l', lmove cfg l m = Some (Ret l').
Proof.
  intros H Hp. destruct (G_reach _ _ _ H) as [g HG]. destruct (lmove cfg l m) as [r|] eqn:E; [|left; reflexivity].
  right. destruct (G_step _ _ _ _ _ HG Hp E) as (l1 & g' & -> & _). exists l1. reflexivity.
Qed.
Lemma forwards cfg n l m l' : reach cfg n true l -> polite cfg l m -> lmove cfg l m = Some (Ret l') ->
  stage (lf_st l) <= stage (lf_st l').
Proof.
  intros H Hp E. destruct (G_reach _ _ _ H) as [g HG].
  destruct (G_step _ _ _ _ _ HG Hp E) as (l1 & g' & E1 & _ & Hs). injection E1 as <-. exact Hs.
Qed.
Lemma answers cfg n l : reach cfg n true l ->
  times is_ok (lf_log l) <= 1 /\ times is_first (lf_log l) <= 1 /\ times is_not (lf_log l) = 0 /\
  forall c r, In (c, r) (lf_log l) -> is_report r = true ->
    all_joined cfg l /\ lf_st l = ThreadsJoined /\ times is_first (lf_log l) = 1.
Proof.
  intros H. destruct (G_reach _ _ _ H) as [g HG].
  destruct HG as [a1 a2 a3 a4 a5 a6 a7 a8 a9 a10 a11 a12 a13 a14 a15 a16].
  split; [rewrite a9; destruct g; cbn; lia|]. split; [rewrite a10; destruct g; lia|]. split; [exact a12|].
  intros c r Hi Hr. destruct (a11 _ _ Hi Hr) as [h ->]. split; [|split; [exact a7|exact a10]].
  split; [exact a3|]. split.
  - apply Forall_forall. intros t Ht. apply In_nth_error in Ht. destruct Ht as [i Ht]. pose proof (a4 _ _ Ht) as A. cbn in A. congruence.
  - unfold g_dir, g_prog in a5, a6. destruct (lc_recv cfg), (lc_prog cfg); cbn in a5, a6; tauto.
Qed.

(** ** Something can always go on until every call has returned *)
Lemma go_on cfg n l : reach cfg n true l -> (exists c p, nth_error (lf_pcs l) c = Some p /\ p <> CIdle) ->
  exists m l', is_call m = false /\ lmove cfg l m = Some (Ret l').
Proof.
  intros H (c & p & Hc & Hp). destruct (G_reach _ _ _ H) as [g HG].
  assert (HE : forall m r, is_call m = false -> lmove cfg l m = Some r -> exists m l', is_call m = false /\ lmove cfg l m = Some (Ret l')).
  { intros m r Hm E. destruct (no_crash cfg n l m H) as [E'|[l' E']]; [destruct m; try exact I; discriminate|congruence|].
    exists m, l'. split; assumption. }
  assert (HW : forall k t, nth_error (lf_work l) k = Some t -> t = TRun \/ t = TPast \/ t = TDone ->
    (exists r, join t = Some r) \/ exists m l', is_call m = false /\ lmove cfg l m = Some (Ret l')).
  { intros k t Hk Ht. destruct Ht as [-> | [-> | ->]].
    - right. eapply (HE (MPast k)); [reflexivity|]. cbn [lmove]. rewrite Hk. reflexivity.
    - right. eapply (HE (MDone k)); [reflexivity|]. cbn [lmove]. rewrite Hk. reflexivity.
    - left. eexists. reflexivity. }
  assert (HD : forall t, lf_dir l = t -> t = TRun \/ t = TPast \/ t = TDone ->
    (exists r, join t = Some r) \/ exists m l', is_call m = false /\ lmove cfg l m = Some (Ret l')).
  { intros t Hk Ht. destruct Ht as [-> | [-> | ->]].
    - right. eapply (HE MDir); [reflexivity|]. cbn [lmove]. rewrite Hk. reflexivity.
    - destruct (G_dir _ _ _ HG). congruence.
    - left. eexists. reflexivity. }
  assert (HGo : forall c p, nth_error (lf_pcs l) c = Some p -> caller_step cfg l c p <> None ->
    exists m l', is_call m = false /\ lmove cfg l m = Some (Ret l')).
  { intros c1 p1 H1 H2. destruct (caller_step cfg l c1 p1) as [r1|] eqn:E1; [|congruence].
    eapply (HE (MGo c1)); [reflexivity|]. cbn [lmove]. rewrite H1. exact E1. }
  destruct (g_cur g) as [[c1 p1]|] eqn:Ecur.
  - pose proof (G_cur _ _ _ HG _ _ Ecur) as H1. pose proof HG as [a1 a2 a3 a4 a5 a6 a7 a8 a9 a10 a11 a12 a13 a14 a15 a16].
    destruct g as [| | | | |c0 k| |[]|c0 k| | | |[]]; try discriminate; cbn in Ecur; injection Ecur as <- <-.
    + eapply HGo; [exact H1|]. discriminate.
    + eapply HGo; [exact H1|]. discriminate.
    + eapply HGo; [exact H1|]. cbn. destruct (spawn _); discriminate.
    + cbn in a16. destruct a16 as [Hr Ht]. destruct a5 as [a5 _]. unfold g_dir in a5. rewrite Hr in a5.
      destruct (HD _ eq_refl a5) as [[r E]|E]; [|exact E].
      eapply HGo; [exact H1|]. cbn. rewrite E. destruct r; discriminate.
    + destruct (nth_error (lf_work l) k) as [[]|] eqn:Ek; (eapply HGo; [exact H1|]; cbn; rewrite Ek; discriminate).
    + destruct (lc_prog cfg) eqn:Ep; (eapply HGo; [exact H1|]; cbn; rewrite Ep; try destruct (spawn _); discriminate).
    + destruct (lf_st l) eqn:Es; (eapply HGo; [exact H1|]; cbn; rewrite Es; discriminate).
    + destruct (nth_error (lf_work l) k) as [t|] eqn:Ek.
      * pose proof (a4 _ _ Ek) as A. cbn [g_work] in A. rewrite Nat.ltb_irrefl in A.
        destruct (HW _ _ Ek A) as [[r E]|E]; [|exact E].
        eapply HGo; [exact H1|]. cbn. rewrite Ek, E. destruct t; try discriminate E; destruct r; discriminate.
      * eapply HGo; [exact H1|]. cbn. rewrite Ek. discriminate.
    + cbn in a16. destruct a16 as [Hr Ht]. destruct a5 as [a5 _]. unfold g_dir in a5. rewrite Hr in a5.
      destruct (HD _ eq_refl a5) as [[r E]|E]; [|exact E].
      eapply HGo; [exact H1|]. cbn. rewrite E. destruct r; discriminate.
    + eapply HGo; [exact H1|]. discriminate.
    + destruct (lc_prog cfg) eqn:Ep; [|eapply HGo; [exact H1|]; cbn; rewrite Ep; discriminate].
      destruct a6 as [a6 a6']. unfold g_prog in a6. rewrite Ep in a6. destruct a6 as [E|[E|E]]; [|congruence|].
      * eapply (HE MProg); [reflexivity|]. cbn [lmove]. rewrite E, a7. reflexivity.
      * eapply HGo; [exact H1|]. cbn. rewrite Ep, E. discriminate.
    + destruct (lf_st l) eqn:Es; (eapply HGo; [exact H1|]; cbn; rewrite Es; discriminate).
  - destruct (G_pcs _ _ _ HG _ _ Hc) as [[E|[E|E]]|E]; [congruence| | |congruence]; subst p.
    + destruct (lf_st l) eqn:Es; (eapply HGo; [exact Hc|]; cbn; rewrite Es; discriminate).
    + eapply HGo; [exact Hc|]. cbn. rewrite (G_lock _ _ _ HG).
      destruct g as [| | | | | | |[]| | | | |[]]; discriminate.
Qed.

(** ** and it does not go on for ever *)
Definition w_th (t : th) : nat := match t with TNone => 4 | TRun => 3 | TPast => 2 | TDone => 1 | TJoined => 0 end.
Definition w_pcs (n : nat) (p : pc) : nat :=
  match p with
  | CIdle => 0
  | SCheck => 5 * n + 30 | SSet => n + 25 | SMake => 5 * n + 25 | SDir => n + 20 | SDirJoin => n + 19
  | SWork k => n - k + 10 | SProg => 9
  | FLock => n + 15 | FRead => n + 14 | FWork k => n - k + 10 | FDir => 9 | FSet => 8 | FProg => 7
  end.
Definition sumf {A} (f : A -> nat) (l : list A) : nat := fold_right (fun x s => f x + s) 0 l.
Lemma sumf_set {A} (f : A -> nat) l : forall i x y, nth_error l i = Some x -> sumf f (set_nth l i y) + f x = sumf f l + f y.
Proof.
  induction l as [|a l IH]; intros [|i] x y H; cbn in H; try discriminate.
  - injection H as ->. cbn. lia.
  - specialize (IH _ _ y H). unfold sumf in *. cbn [set_nth fold_right]. lia.
Qed.
Definition weight (cfg : lcfg) (l : life) : nat :=
  sumf (w_pcs (lc_n cfg)) (lf_pcs l) + sumf w_th (lf_work l) + w_th (lf_dir l) + w_th (lf_prog l).
Lemma sumf_none n : sumf w_th (repeat TNone n) = 4 * n.
Proof. induction n as [|n IH]; [reflexivity|]. unfold sumf in *. cbn [repeat fold_right w_th]. rewrite IH. lia. Qed.
Lemma weight_less cfg g l m l' : G cfg g l -> is_call m = false -> lmove cfg l m = Some (Ret l') -> weight cfg l' < weight cfg l.
Proof.
  intros HG Hm H. pose proof HG as [a1 a2 a3 a4 a5 a6 a7 a8 a9 a10 a11 a12 a13 a14 a15 a16].
  destruct m as [c|c|c|i|i| |]; try discriminate; cbn [lmove] in H.
  - destruct (nth_error (lf_pcs l) c) as [p|] eqn:Hc; [|discriminate].
    pose proof (fun q => sumf_set (w_pcs (lc_n cfg)) _ _ _ q Hc) as HS. unfold weight.
    destruct p; cbn [caller_step] in H.
    + discriminate.
    + specialize (HS SSet) as H1. specialize (HS SMake) as H2. specialize (HS CIdle) as H3. cbn [w_pcs] in H1, H2, H3.
      destruct (lf_st l), (lc_recv cfg); try discriminate; injection H as <-; cbn [w_pc w_ret w_st lf_pcs lf_work lf_dir lf_prog]; lia.
    + specialize (HS (SWork 0)). cbn [w_pcs] in HS. injection H as <-. cbn [w_pc w_ret w_st lf_pcs lf_work lf_dir lf_prog]. lia.
    + specialize (HS SDir). cbn [w_pcs] in HS. injection H as <-. cbn [w_pc w_work lf_pcs lf_work lf_dir lf_prog]. rewrite sumf_none.
      heavy HG Hc. cbn in a3, a16. rewrite a16 in a3. apply length_zero_iff_nil in a3. rewrite a3. cbn [sumf fold_right]. lia.
    + specialize (HS SDirJoin) as H1. specialize (HS (SWork 0)) as H2. cbn [w_pcs] in H1, H2.
      destruct (lf_dir l) eqn:E; try discriminate; cbn in H; injection H as <-; destruct (lc_two cfg); cbn [w_pc w_dir lf_pcs lf_work lf_dir lf_prog w_th]; try lia.
      all: heavy HG Hc; destruct a5 as [a5 _]; unfold g_dir in a5; rewrite ?E in a5; destruct (lc_recv cfg); discriminate.
    + specialize (HS (SWork 0)). cbn [w_pcs] in HS.
      destruct (lf_dir l) eqn:E; try discriminate; cbn in H; injection H as <-; cbn [w_pc w_dir lf_pcs lf_work lf_dir lf_prog w_th]; lia.
    + heavy HG Hc. cbn in a3, a16. destruct (nth_error (lf_work l) k) as [[]|] eqn:Ek; try discriminate; injection H as <-.
      * specialize (HS (SWork (S k))). cbn [w_pcs] in HS. pose proof (sumf_set w_th _ _ _ TRun Ek) as HW. cbn [w_th] in HW.
        assert (k < lc_n cfg) by (rewrite <- a3; apply nth_error_Some; congruence).
        cbn [w_pc w_work lf_pcs lf_work lf_dir lf_prog w_th]. lia.
      * specialize (HS SProg). cbn [w_pcs] in HS. cbn [w_pc w_work lf_pcs lf_work lf_dir lf_prog w_th]. lia.
    + specialize (HS CIdle). cbn [w_pcs] in HS. heavy HG Hc. destruct a6 as [a6 _]. unfold g_prog in a6.
      destruct (lc_prog cfg).
      * cbn in a6. rewrite a6 in H |- *. cbn in H. injection H as <-. cbn [w_ret w_prog lf_pcs lf_work lf_dir lf_prog w_th]. lia.
      * injection H as <-. cbn [w_ret w_prog lf_pcs lf_work lf_dir lf_prog w_th]. lia.
    + specialize (HS FRead). cbn [w_pcs] in HS. destruct (lf_lock l); [discriminate|]. injection H as <-.
      cbn [w_pc w_lock lf_pcs lf_work lf_dir lf_prog w_th]. lia.
    + specialize (HS CIdle) as H1. specialize (HS (FWork 0)) as H2. cbn [w_pcs] in H1, H2.
      destruct (lf_st l); injection H as <-; cbn [w_pc w_ret w_lock lf_pcs lf_work lf_dir lf_prog w_th]; lia.
    + heavy HG Hc. cbn in a3, a16. destruct (nth_error (lf_work l) k) as [t|] eqn:Ek.
      * specialize (HS (FWork (S k))). cbn [w_pcs] in HS.
        assert (k < lc_n cfg) by (rewrite <- a3; apply nth_error_Some; congruence).
        destruct t; try discriminate; cbn in H; injection H as <-; try pose proof (sumf_set w_th _ _ _ TJoined Ek) as HW; cbn [w_th] in HW;
          cbn [w_pc w_work lf_pcs lf_work lf_dir lf_prog w_th]; lia.
      * specialize (HS FSet) as H1. specialize (HS FDir) as H2. cbn [w_pcs] in H1, H2. injection H as <-.
        destruct (lc_recv cfg || lc_two cfg); cbn [w_pc w_work lf_pcs lf_work lf_dir lf_prog w_th]; lia.
    + specialize (HS FSet). cbn [w_pcs] in HS.
      destruct (lf_dir l) eqn:E; try discriminate; cbn in H; injection H as <-; cbn [w_pc w_dir lf_pcs lf_work lf_dir lf_prog w_th]; lia.
    + specialize (HS FProg). cbn [w_pcs] in HS. injection H as <-. cbn [w_pc w_st lf_pcs lf_work lf_dir lf_prog w_th]. lia.
    + specialize (HS CIdle). cbn [w_pcs] in HS. destruct (lc_prog cfg).
      * destruct (lf_prog l) eqn:E; try discriminate; cbn in H; injection H as <-; cbn [w_ret w_prog w_lock lf_pcs lf_work lf_dir lf_prog w_th]; lia.
      * injection H as <-. cbn [w_ret w_lock lf_pcs lf_work lf_dir lf_prog w_th]. lia.
  - destruct (nth_error (lf_work l) i) as [[]|] eqn:E; try discriminate. injection H as <-.
    pose proof (sumf_set w_th _ _ _ TPast E) as HW. cbn [w_th] in HW. unfold weight.
    destruct (forallb past _); cbn [w_work w_st lf_pcs lf_work lf_dir lf_prog]; lia.
  - destruct (nth_error (lf_work l) i) as [[]|] eqn:E; try discriminate. injection H as <-.
    pose proof (sumf_set w_th _ _ _ TDone E) as HW. cbn [w_th] in HW. unfold weight.
    cbn [w_work w_st lf_pcs lf_work lf_dir lf_prog]; lia.
  - destruct (lf_dir l) eqn:E; try discriminate. injection H as <-. unfold weight. rewrite E. cbn [w_dir lf_pcs lf_work lf_dir lf_prog w_th]. lia.
  - destruct (lf_prog l) eqn:E; try discriminate.
    assert (l' = w_prog l TDone) as -> by (destruct (lf_st l); try (destruct (lc_early cfg)); congruence).
    unfold weight. rewrite E. cbn [w_prog lf_pcs lf_work lf_dir lf_prog w_th]. lia.
Qed.
Lemma run_short cfg n ms : forall l l', reach cfg n true l -> Forall (fun m => is_call m = false) ms ->
  lrun cfg l ms = Some (Ret l') -> reach cfg n true l' /\ length ms + weight cfg l' <= weight cfg l.
Proof.
  induction ms as [|m ms IH]; intros l l' H HF E; cbn [lrun] in E.
  - injection E as <-. split; [exact H|]. cbn. lia.
  - inversion HF as [|? ? Hm HF']; subst. destruct (lmove cfg l m) as [[l1| |]|] eqn:E1; try discriminate.
    destruct (G_reach _ _ _ H) as [g HG]. pose proof (weight_less _ _ _ _ _ HG Hm E1) as Hw.
    assert (H1 : reach cfg n true l1) by (eapply reach_step; [exact H| |exact E1]; intros _; destruct m; try exact I; discriminate).
    destruct (IH _ _ H1 HF' E) as [H2 H3]. split; [exact H2|]. cbn [length]. lia.
Qed.
Lemma all_return cfg n l : reach cfg n true l -> exists bound, forall ms l',
  Forall (fun m => is_call m = false) ms -> lrun cfg l ms = Some (Ret l') ->
  length ms <= bound /\
  ((forall m, is_call m = false -> lmove cfg l' m = None) -> forall c p, nth_error (lf_pcs l') c = Some p -> p = CIdle).
Proof.
  intros H. exists (weight cfg l). intros ms l' HF E. destruct (run_short _ _ _ _ _ H HF E) as [H' Hw]. split; [lia|].
  intros Hstop c p Hc. destruct p; try reflexivity; exfalso;
    (destruct (go_on _ _ _ H') as (m & l2 & Hm & E2); [do 2 eexists; split; [exact Hc|discriminate]|rewrite (Hstop _ Hm) in E2; discriminate]).
Qed.

(** ** Without politeness *)
Definition is_s (p : pc) : nat := match p with SSet | SMake | SDir | SDirJoin | SWork _ | SProg => 1 | _ => 0 end.
Definition O_inv (l : life) : Prop :=
  sumf is_s (lf_pcs l) + times is_ok (lf_log l) <= (match lf_st l with NotStarted => 0 | _ => 1 end).
Lemma O_step cfg l m l' : lc_recv cfg = false -> O_inv l -> lmove cfg l m = Some (Ret l') -> O_inv l'.
Proof.
  intros Hr HO H. unfold O_inv in *. destruct m as [c|c|c|i|i| |]; cbn [lmove] in H.
  - destruct (nth_error (lf_pcs l) c) as [[]|] eqn:Hc; try discriminate. injection H as <-.
    pose proof (sumf_set is_s _ _ _ SCheck Hc) as HS. cbn [is_s] in HS. cbn [w_pc lf_pcs lf_log lf_st]. lia.
  - destruct (nth_error (lf_pcs l) c) as [[]|] eqn:Hc; try discriminate. injection H as <-.
    pose proof (sumf_set is_s _ _ _ FLock Hc) as HS. cbn [is_s] in HS. cbn [w_pc lf_pcs lf_log lf_st]. lia.
  - destruct (nth_error (lf_pcs l) c) as [p|] eqn:Hc; [|discriminate].
    pose proof (fun q => sumf_set is_s _ _ _ q Hc) as HS.
    assert (HI : forall l2 q, lf_pcs l2 = set_nth (lf_pcs l) c q -> lf_log l2 = lf_log l -> is_s q = is_s p ->
      match lf_st l with NotStarted => 0 | _ => 1 end <= match lf_st l2 with NotStarted => 0 | _ => 1 end ->
      sumf is_s (lf_pcs l2) + times is_ok (lf_log l2) <= (match lf_st l2 with NotStarted => 0 | _ => 1 end)).
    { intros l2 q E1 E2 E3 E4. rewrite E1, E2. specialize (HS q). lia. }
    destruct p; cbn [caller_step] in H; rewrite ?Hr in H.
    + discriminate.
    + specialize (HS SMake) as H1. specialize (HS CIdle) as H2. cbn [is_s] in H1, H2.
      destruct (lf_st l) eqn:Es; injection H as <-; cbn [w_pc w_ret w_st lf_pcs lf_log lf_st]; rewrite ?times_cons, ?Es; cbn [is_ok]; try (replace (ALREADY_EXISTS =? OK)%Z with false by reflexivity); lia.
    + injection H as <-. eapply HI; try reflexivity. cbn. destruct (lf_st l); lia.
    + injection H as <-. eapply HI; try reflexivity.
    + destruct (lf_dir l); try discriminate; cbn in H; injection H as <-; eapply HI; try reflexivity; destruct (lc_two cfg); reflexivity.
    + destruct (lf_dir l); try discriminate; cbn in H; injection H as <-; eapply HI; reflexivity.
    + destruct (nth_error (lf_work l) k) as [[]|]; try discriminate; injection H as <-; eapply HI; reflexivity.
    + specialize (HS CIdle). cbn [is_s] in HS.
      assert (E : lf_pcs l' = set_nth (lf_pcs l) c CIdle /\ lf_log l' = (c, RStart OK) :: lf_log l /\ lf_st l' = lf_st l).
      { destruct (lc_prog cfg); [destruct (lf_prog l); try discriminate; cbn in H|]; injection H as <-; repeat split; reflexivity. }
      destruct E as (-> & -> & ->). rewrite times_cons. change (is_ok (RStart OK)) with true. cbn iota. lia.
    + destruct (lf_lock l); [discriminate|]. injection H as <-. eapply HI; reflexivity.
    + specialize (HS CIdle) as H1. cbn [is_s] in H1. destruct (lf_st l) eqn:Es; injection H as <-;
        cbn [w_pc w_ret w_lock lf_pcs lf_log lf_st]; rewrite ?times_cons, ?Es; cbn [is_ok]; try lia; specialize (HS (FWork 0)); cbn [is_s] in HS; lia.
    + destruct (nth_error (lf_work l) k) as [[]|]; try discriminate; cbn in H; injection H as <-; eapply HI; try reflexivity.
      destruct (lc_two cfg); reflexivity.
    + destruct (lf_dir l); try discriminate; cbn in H; injection H as <-; eapply HI; reflexivity.
    + injection H as <-. eapply HI; try reflexivity. cbn. destruct (lf_st l); lia.
    + specialize (HS CIdle). cbn [is_s] in HS.
      assert (E : lf_pcs l' = set_nth (lf_pcs l) c CIdle /\ lf_log l' = (c, RFirst) :: lf_log l /\ lf_st l' = lf_st l).
      { destruct (lc_prog cfg); [destruct (lf_prog l); try discriminate; cbn in H|]; injection H as <-; repeat split; reflexivity. }
      destruct E as (-> & -> & ->). rewrite times_cons. cbn [is_ok]. lia.
  - destruct (nth_error (lf_work l) i) as [[]|]; try discriminate. injection H as <-.
    destruct (forallb past _); cbn [w_work w_st lf_pcs lf_log lf_st]; destruct (lf_st l); lia.
  - destruct (nth_error (lf_work l) i) as [[]|]; try discriminate. injection H as <-. exact HO.
  - destruct (lf_dir l); try discriminate. injection H as <-. exact HO.
  - destruct (lf_prog l); try discriminate.
    assert (l' = w_prog l TDone) as -> by (destruct (lf_st l); try (destruct (lc_early cfg)); congruence). exact HO.
Qed.
Lemma sumf_idle n : sumf is_s (repeat CIdle n) = 0.
Proof. induction n as [|n IH]; [reflexivity|]. unfold sumf in *. cbn [repeat fold_right is_s]. exact IH. Qed.
Lemma one_start cfg n d l : lc_recv cfg = false -> reach cfg n d l -> times is_ok (lf_log l) <= 1.
Proof.
  intros Hr H. assert (HO : O_inv l); [|unfold O_inv in HO; destruct (lf_st l); lia].
  induction H as [|l m l' H IH Hp E]; [unfold O_inv; cbn [lf_new lf_pcs lf_log lf_st]; rewrite sumf_idle; cbn; lia|exact (O_step _ _ _ _ Hr IH E)].
Qed.

(** ** The receiver that runs for ever *)
(** ** The lock of finish() *)
Definition Lk (l : life) : Prop :=
  forall c, lf_lock l = Some c <-> exists p, nth_error (lf_pcs l) c = Some p /\ inside p = true.
Lemma Lk_keep l l' c p q : Lk l -> nth_error (lf_pcs l) c = Some p -> inside q = inside p ->
  lf_pcs l' = set_nth (lf_pcs l) c q -> lf_lock l' = lf_lock l -> Lk l'.
Proof.
  intros L N E P K d. rewrite K, (L d), P. destruct (Nat.eq_dec d c) as [->|X].
  - rewrite (set_same _ _ _ _ N), N. split; intros (x & H & I); injection H as <-; eexists; (split; [reflexivity|congruence]).
  - rewrite set_other by exact X. tauto.
Qed.
Lemma Lk_free l l' c p q : Lk l -> nth_error (lf_pcs l) c = Some p -> inside p = true -> inside q = false ->
  lf_pcs l' = set_nth (lf_pcs l) c q -> lf_lock l' = None -> Lk l'.
Proof.
  intros L N E Q P K d. rewrite K, P. split; [discriminate|]. intros (x & H & I). destruct (Nat.eq_dec d c) as [->|X].
  - rewrite (set_same _ _ _ _ N) in H. congruence.
  - rewrite set_other in H by exact X. assert (A : lf_lock l = Some d) by (apply L; eauto).
    assert (B : lf_lock l = Some c) by (apply L; eauto). congruence.
Qed.
Lemma Lk_take l l' c p q : Lk l -> nth_error (lf_pcs l) c = Some p -> lf_lock l = None -> inside q = true ->
  lf_pcs l' = set_nth (lf_pcs l) c q -> lf_lock l' = Some c -> Lk l'.
Proof.
  intros L N E Q P K d. rewrite K, P. destruct (Nat.eq_dec d c) as [->|X].
  - rewrite (set_same _ _ _ _ N). split; [eauto|reflexivity].
  - rewrite set_other by exact X. split; [congruence|]. intros H. apply L in H. congruence.
Qed.
Lemma Lk_same l l' : Lk l -> lf_pcs l' = lf_pcs l -> lf_lock l' = lf_lock l -> Lk l'.
Proof. intros L P K d. rewrite P, K. apply L. Qed.
Lemma Lk_step cfg l m l' : Lk l -> lmove cfg l m = Some (Ret l') -> Lk l'.
Proof.
  intros L H. destruct m as [c|c|c|i|i| |]; cbn [lmove] in H.
  - destruct (nth_error (lf_pcs l) c) as [p|] eqn:N; [|discriminate]. destruct p; try discriminate. injection H as <-.
    eapply Lk_keep; [exact L|exact N| |reflexivity|reflexivity]; reflexivity.
  - destruct (nth_error (lf_pcs l) c) as [p|] eqn:N; [|discriminate]. destruct p; try discriminate. injection H as <-.
    eapply Lk_keep; [exact L|exact N| |reflexivity|reflexivity]; reflexivity.
  - destruct (nth_error (lf_pcs l) c) as [p|] eqn:N; [|discriminate].
    destruct p; cbn [caller_step] in H; unfold then_, join, spawn in H; try discriminate;
    repeat match type of H with
           | context [match ?x with _ => _ end] => destruct x eqn:?; try discriminate
           end; try discriminate; injection H as <-;
    first [ eapply Lk_keep; [exact L|exact N| |reflexivity|reflexivity]; reflexivity
          | eapply Lk_free; [exact L|exact N| | |reflexivity|reflexivity]; reflexivity
          | eapply Lk_take; [exact L|exact N|assumption| |reflexivity|reflexivity]; reflexivity ].
  - destruct (nth_error (lf_work l) i) as [t|]; [|discriminate]. destruct t; try discriminate. injection H as <-.
    eapply Lk_same; [exact L| |]; cbn; destruct (forallb past _); reflexivity.
  - destruct (nth_error (lf_work l) i) as [t|]; [|discriminate]. destruct t; try discriminate. injection H as <-.
    eapply Lk_same; [exact L| |]; reflexivity.
  - destruct (lf_dir l); try discriminate. injection H as <-. eapply Lk_same; [exact L| |]; reflexivity.
  - destruct (lf_prog l); try discriminate. destruct (lf_st l); try destruct (lc_early cfg); try discriminate; injection H as <-;
    (eapply Lk_same; [exact L| |]; reflexivity).
Qed.
Lemma lock_held cfg n d l c : reach cfg n d l ->
  (lf_lock l = Some c <-> exists p, nth_error (lf_pcs l) c = Some p /\ inside p = true).
Proof.
  intros R. revert c. change (Lk l). induction R as [|l m l' R IH _ H].
  - intros c. cbn [lf_new lf_lock lf_pcs]. split; [discriminate|]. intros (p & N & I). apply nth_error_In, repeat_spec in N. subst. discriminate.
  - eapply Lk_step; eauto.
Qed.

Definition v_st (v : forever) : status := match fv_round v with O => Ongoing | _ => NotStarted end.
Definition v_work (p : fpc) (i : nat) : cls :=
  match p with VStart k => if i <? k then KA else K0 | VJoin k => if i <? k then K0 else KA | VReset => K0 end.
Record V (n : nat) (v : forever) : Prop := {
  V_len : length (fv_work v) = n;
  V_work : forall i t, nth_error (fv_work v) i = Some t -> has (v_work (fv_pc v) i) t;
  V_k : match fv_pc v with VStart k | VJoin k => k <= n | VReset => True end;
  V_st : fv_st v = v_st v \/
    (fv_st v = Finished /\ (forall i t, nth_error (fv_work v) i = Some t -> t <> TRun) /\ match fv_pc v with VStart k => n <= k | _ => True end)
}.
Lemma forallb_past w : forallb past w = true -> forall i t, nth_error w i = Some t -> t <> TRun.
Proof. intros H i t Ht ->. rewrite forallb_forall in H. specialize (H _ (nth_error_In _ _ Ht)). discriminate. Qed.
Lemma nth_skip {A} (l : list A) : forall k i, nth_error (skipn k l) i = nth_error l (k + i).
Proof. induction l as [|a l IH]; intros [|k] i; cbn; try reflexivity; [destruct i; reflexivity|apply IH]. Qed.
Lemma V_step n v m r : V n v -> vmove v m = Some r -> exists v', r = Ret v' /\ V n v'.
Proof.
  intros [b1 b2 b3 b4] H. destruct m as [|i|i]; cbn [vmove] in H.
  - destruct (fv_pc v) as [k|k|] eqn:Ep.
    + destruct (nth_error (fv_work v) k) as [t|] eqn:Ek.
      * pose proof (b2 _ _ Ek) as A. cbn [v_work] in A. rewrite Nat.ltb_irrefl in A. cbn in A. subst t. injection H as <-.
        assert (k < n) by (rewrite <- b1; apply nth_error_Some; congruence).
        eexists. split; [reflexivity|]. constructor; cbn [fv_work fv_pc fv_st fv_round].
        { rewrite set_length. exact b1. }
        { intros i t Hi. apply set_cases in Hi. cbn [v_work]. destruct Hi as [[-> ->]|[Hne Hi]].
          - replace (k <? S k) with true by (symmetry; apply Nat.ltb_lt; lia). cbn. auto.
          - pose proof (b2 _ _ Hi) as A. cbn [v_work] in A. destruct (i <? k) eqn:E1.
            + apply Nat.ltb_lt in E1. replace (i <? S k) with true by (symmetry; apply Nat.ltb_lt; lia). exact A.
            + apply Nat.ltb_ge in E1. replace (i <? S k) with false by (symmetry; apply Nat.ltb_ge; lia). exact A. }
        { lia. }
        { destruct b4 as [E|(_ & _ & E)]; [left; exact E|lia]. }
      * injection H as <-. apply nth_error_None in Ek. eexists. split; [reflexivity|]. constructor; cbn [fv_work fv_pc fv_st fv_round].
        { exact b1. }
        { intros i t Hi. pose proof (b2 _ _ Hi) as A. cbn [v_work] in A |- *.
          assert (i < length (fv_work v)) by (apply nth_error_Some; congruence).
          replace (i <? k) with true in A by (symmetry; apply Nat.ltb_lt; lia). exact A. }
        { lia. }
        { destruct b4 as [E|(E & E2 & _)]; [left; exact E|right; repeat split; assumption]. }
    + destruct (nth_error (fv_work v) k) as [t|] eqn:Ek.
      * pose proof (b2 _ _ Ek) as A. cbn [v_work] in A. rewrite Nat.ltb_irrefl in A. cbn in A.
        assert (k < n) by (rewrite <- b1; apply nth_error_Some; congruence).
        destruct A as [-> | [-> | ->]]; try discriminate. injection H as <-.
        eexists. split; [reflexivity|]. constructor; cbn [fv_work fv_pc fv_st fv_round].
        { rewrite set_length. exact b1. }
        { intros i t Hi. apply set_cases in Hi. cbn [v_work]. destruct Hi as [[-> ->]|[Hne Hi]].
          - replace (k <? S k) with true by (symmetry; apply Nat.ltb_lt; lia). cbn. auto.
          - pose proof (b2 _ _ Hi) as A. cbn [v_work] in A. destruct (i <? k) eqn:E1.
            + apply Nat.ltb_lt in E1. replace (i <? S k) with true by (symmetry; apply Nat.ltb_lt; lia). exact A.
            + apply Nat.ltb_ge in E1. replace (i <? S k) with false by (symmetry; apply Nat.ltb_ge; lia). exact A. }
        { lia. }
        { destruct b4 as [E|(E & E2 & _)]; [left; exact E|right]. repeat split; [exact E|].
          intros i t Hi. apply set_cases in Hi. destruct Hi as [[_ ->]|[_ Hi]]; [discriminate|exact (E2 _ _ Hi)]. }
      * injection H as <-. apply nth_error_None in Ek. eexists. split; [reflexivity|]. constructor; cbn [fv_work fv_pc fv_st fv_round].
        { exact b1. }
        { intros i t Hi. pose proof (b2 _ _ Hi) as A. cbn [v_work] in A |- *.
          assert (i < length (fv_work v)) by (apply nth_error_Some; congruence).
          replace (i <? k) with true in A by (symmetry; apply Nat.ltb_lt; lia). exact A. }
        { exact I. }
        { destruct b4 as [E|(E & E2 & _)]; [left; exact E|right; repeat split; assumption]. }
    + injection H as <-. eexists. split; [reflexivity|]. constructor; cbn [fv_work fv_pc fv_st fv_round].
      * exact b1.
      * intros i t Hi. exact (b2 _ _ Hi).
      * lia.
      * left. reflexivity.
  - destruct (nth_error (fv_work v) i) as [[]|] eqn:Ei; try discriminate. injection H as <-.
    eexists. split; [reflexivity|]. pose proof (b2 _ _ Ei) as A. constructor; cbn [fv_work fv_pc fv_st fv_round].
    + rewrite set_length. exact b1.
    + intros j t Hj. apply set_cases in Hj. destruct Hj as [[-> ->]|[_ Hj]]; [|exact (b2 _ _ Hj)].
      destruct (v_work (fv_pc v) i); cbn in A |- *; try congruence; auto.
    + exact b3.
    + assert (HB : fv_st v = v_st v).
      { destruct b4 as [E|(_ & E & _)]; [exact E|]. destruct (E _ _ Ei eq_refl). }
      destruct (fv_pc v) as [k|k|] eqn:Ep.
      * destruct (Nat.leb (length (set_nth (fv_work v) i TPast)) k) eqn:El; cbn [andb]; [|left; exact HB].
        destruct (forallb past _) eqn:Ef; [right|left; exact HB]. apply Nat.leb_le in El. rewrite set_length, b1 in El.
        repeat split; [|exact El]. exact (forallb_past _ Ef).
      * destruct (forallb past _) eqn:Ef; [right|left; exact HB]. repeat split.
        intros j t Hj ->. destruct (Nat.lt_ge_cases j k) as [Hlt|Hge].
        { apply set_cases in Hj. destruct Hj as [[_ E]|[_ Hj]]; [discriminate|]. apply b2 in Hj. cbn [v_work] in Hj.
          replace (j <? k) with true in Hj by (symmetry; apply Nat.ltb_lt; lia). discriminate. }
        { apply (forallb_past _ Ef (j - k) TRun); [|reflexivity]. rewrite nth_skip. replace (k + (j - k)) with j by lia. exact Hj. }
      * left. exact HB.
  - destruct (nth_error (fv_work v) i) as [[]|] eqn:Ei; try discriminate. injection H as <-.
    eexists. split; [reflexivity|]. pose proof (b2 _ _ Ei) as A. constructor; cbn [fv_work fv_pc fv_st fv_round].
    + rewrite set_length. exact b1.
    + intros j t Hj. apply set_cases in Hj. destruct Hj as [[-> ->]|[_ Hj]]; [|exact (b2 _ _ Hj)].
      destruct (v_work (fv_pc v) i); cbn in A |- *; try congruence; auto.
    + exact b3.
    + destruct b4 as [E|(E & E2 & E3)]; [left; exact E|right]. repeat split; [exact E| |exact E3].
      intros j t Hj. apply set_cases in Hj. destruct Hj as [[_ ->]|[_ Hj]]; [discriminate|exact (E2 _ _ Hj)].
Qed.
Lemma V_reach n v : vreach n v -> V n v.
Proof.
  induction 1 as [|v m v' H IH E].
  - constructor; cbn; [apply repeat_length| |lia|left; reflexivity].
    intros i t Hi. apply nth_error_In, repeat_spec in Hi. subst t. reflexivity.
  - destruct (V_step _ _ _ _ IH E) as (v1 & E1 & H1). injection E1 as <-. exact H1.
Qed.
Lemma forever_status n v : vreach n v ->
  (forall m, vmove v m = None \/ exists v', vmove v m = Some (Ret v')) /\
  ((exists i, nth_error (fv_work v) i = Some TRun) -> fv_st v = match fv_round v with O => Ongoing | _ => NotStarted end) /\
  (0 < fv_round v -> fv_st v <> Ongoing).
Proof.
  intros H. apply V_reach in H. split; [|split].
  - intros m. destruct (vmove v m) as [r|] eqn:E; [right|left; reflexivity].
    destruct (V_step _ _ _ _ H E) as (v' & -> & _). exists v'. reflexivity.
  - intros [i Hi]. destruct (V_st _ _ H) as [E|(_ & E & _)]; [exact E|]. destruct (E _ _ Hi eq_refl).
  - intros Hr. destruct (V_st _ _ H) as [E|(E & _)]; rewrite E; [|discriminate].
    unfold v_st. destruct (fv_round v); [lia|discriminate].
Qed.

(** For the examples. *)
Definition snd3 : lcfg := {| lc_recv := false; lc_n := 2; lc_two := false; lc_prog := true; lc_early := false |}.
Definition snd2 : lcfg := {| lc_recv := false; lc_n := 2; lc_two := true; lc_prog := false; lc_early := false |}.
Definition rcv3 : lcfg := {| lc_recv := true; lc_n := 2; lc_two := false; lc_prog := true; lc_early := false |}.
Definition go (c k : nat) : list move := repeat (MGo c) k.
(** start() by caller 0. *)
Definition started : list move := MStart 0 :: go 0 7.
(** The threads end. *)
Definition ended : list move := [MPast 1; MDir; MPast 0; MDone 1; MDone 0].
Lemma race_finish : lrun snd3 (lf_new snd3 2) (MStart 0 :: go 0 1 ++ MFinish 1 :: go 1 4) = Some Crash.
Proof. vm_compute. reflexivity. Qed.
Lemma race_lost : exists l, lrun snd2 (lf_new snd2 2)
    (MStart 0 :: go 0 3 ++ MDir :: go 0 1 ++ MFinish 1 :: go 1 7 ++ go 0 4) = Some (Ret l) /\
  lf_log l = [(0, RStart OK); (1, RFirst)] /\ lf_st l = ThreadsJoined /\ lf_work l = [TRun; TRun].
Proof.
  exists {| lf_st := ThreadsJoined; lf_work := [TRun; TRun]; lf_dir := TJoined; lf_prog := TNone; lf_lock := None;
            lf_pcs := [CIdle; CIdle]; lf_log := [(0, RStart OK); (1, RFirst)] |}.
  split; [vm_compute; reflexivity|]. repeat split.
Qed.
Lemma race_start : lrun rcv3 (lf_new rcv3 2) (MStart 0 :: MStart 1 :: go 0 3 ++ go 1 3) = Some Crash.
Proof. vm_compute. reflexivity. Qed.

Fixpoint vrun (v : forever) (ms : list fmove) : option forever :=
  match ms with
  | [] => Some v
  | m :: r => match vmove v m with Some (Ret v') => vrun v' r | _ => None end
  end.
Lemma vrun_reach n ms : forall v v', vreach n v -> vrun v ms = Some v' -> vreach n v'.
Proof.
  induction ms as [|m ms IH]; intros v v' H E; cbn [vrun] in E; [injection E as <-; exact H|].
  destruct (vmove v m) as [[v1| |]|] eqn:E1; try discriminate. eapply IH; [|exact E]. eapply vreach_step; eassumption.
Qed.
Lemma second_transfer : exists v, vreach 1 v /\ fv_work v = [TRun] /\ fv_st v = NotStarted.
Proof.
  exists {| fv_st := NotStarted; fv_work := [TRun]; fv_pc := VStart 1; fv_round := 1 |}. split; [|split; reflexivity].
  apply (vrun_reach 1 [VGo; VGo; VPast 0; VDone 0; VGo; VGo; VGo; VGo] (fv_new 1)); [constructor|reflexivity].
Qed.

Local Open Scope Z_scope.
Definition st_of (code data : Z) : stats :=
  {| st_hdr := 0; st_data := data; st_effHdr := 0; st_effData := data; st_files := 0;
     st_blocks := 1; st_failed := 0; st_blocksSend := -1; st_senderBytes := -1;
     st_local := code; st_remote := OK; st_id := []; st_enc := 0; st_tls := false |}.
Lemma codes_differ :
  (exists fs th fd tot nd, getErrorCode (senderReport fs th fd tot nd) = OK /\ getErrorCode (combine_all th) = CONN_ERROR) /\
  (exists fs th fd tot nd, getErrorCode (senderReport fs th fd tot nd) = BYTE_SOURCE_READ_ERROR /\ getErrorCode (combine_all th) = OK).
Proof.
  split.
  - exists [], [st_of OK 60; st_of CONN_ERROR 40], [], 100, 2. split; vm_compute; reflexivity.
  - exists [], [st_of OK 60], [[100; 105; 114]], 60, 1. split; vm_compute; reflexivity.
Qed.
