From Coq Require Export Permutation.
From Verif Require Export Proofs.BytesFacts Proofs.IntervalFacts Spec.QueueSpec.

(** ---- strings ---- *)
Lemma str_eqb_eq a : forall b, str_eqb a b = true <-> a = b.
Proof.
  induction a as [|x a IH]; intros [|y b]; cbn [str_eqb]; try (split; congruence).
  rewrite andb_true_iff, Z.eqb_eq, IH; split; [intros [-> ->]; reflexivity|intros H; injection H; auto].
Qed.
Lemma str_eqb_refl a : str_eqb a a = true.
Proof. apply str_eqb_eq; reflexivity. Qed.
Lemma str_eqb_neq a b : str_eqb a b = false <-> a <> b.
Proof. rewrite <- str_eqb_eq; destruct (str_eqb a b); split; congruence. Qed.
Lemma str_eq_dec (a b : list Z) : {a = b} + {a <> b}.
Proof. destruct (str_eqb a b) eqn:E; [left; apply str_eqb_eq, E|right; apply str_eqb_neq, E]. Qed.

Lemma str_ltb_spec a : forall b, str_ltb a b = true <-> name_before a b.
Proof.
  induction a as [|x a IH]; intros [|y b]; cbn [str_ltb].
  - split; [discriminate|inversion 1].
  - split; [constructor|reflexivity].
  - split; [discriminate|inversion 1].
  - destruct (Z.ltb_spec x y); [split; [constructor; assumption|reflexivity]|].
    destruct (Z.ltb_spec y x).
    + split; [discriminate|inversion 1; subst; lia].
    + assert (x = y) by lia; subst y; rewrite IH; split; [constructor; assumption|].
      inversion 1; subst; [lia|assumption].
Qed.

Lemma name_before_irrefl a : ~ name_before a a.
Proof. induction a as [|x a IH]; inversion 1; subst; [lia|auto]. Qed.
Lemma name_before_trans a : forall b c, name_before a b -> name_before b c -> name_before a c.
Proof.
  induction a as [|x a IH]; intros b c Hab Hbc; inversion Hab; subst; inversion Hbc; subst;
    first [apply nb_nil | apply nb_lt; lia | apply nb_eq; eapply IH; eassumption].
Qed.
Lemma name_before_total a : forall b, name_before a b \/ a = b \/ name_before b a.
Proof.
  induction a as [|x a IH]; intros [|y b]; auto using name_before.
  destruct (Z.lt_trichotomy x y) as [H|[H|H]]; auto using name_before.
  subst; destruct (IH b) as [H|[->|H]]; auto using name_before.
Qed.

(** ---- the priority order ---- *)
Lemma is_deletion_eqb s : (s_alloc s =? TO_BE_DELETED) = true <-> is_deletion s.
Proof. apply Z.eqb_eq. Qed.

Lemma src_less_spec a b : src_less a b = true <-> before b a.
Proof.
  unfold src_less, before, is_deletion.
  destruct (Z.eqb_spec (s_alloc a) TO_BE_DELETED) as [Ha|Ha];
  destruct (Z.eqb_spec (s_alloc b) TO_BE_DELETED) as [Hb|Hb]; cbn [Bool.eqb negb].
  2:{ split; [discriminate|]; intros [[? ?]|[[? ?] _]]; intuition congruence. }
  2:{ split; [intros _; left; auto|reflexivity]. }
  all: destruct (Z.eqb_spec (s_failed a) (s_failed b)); cbn [negb];
       [|rewrite Z.ltb_lt; split;
         [intros; right; split; [tauto|left; lia]
         |intros [[? ?]|[_ [?|[? _]]]]; [tauto|lia|lia]]].
  all: destruct (Z.eqb_spec (s_size a) (s_size b)); cbn [negb];
       [|rewrite Z.ltb_lt; split;
         [intros; right; split; [tauto|right; split; [lia|left; lia]]
         |intros [[? ?]|[_ [?|[_ [?|[? _]]]]]]; [tauto|lia|lia|lia]]].
  all: destruct (Z.eqb_spec (s_offset a) (s_offset b)); cbn [negb];
       [|rewrite Z.ltb_lt; split;
         [intros; right; split; [tauto|right; split; [lia|right; split; [lia|left; lia]]]
         |intros [[? ?]|[_ [?|[_ [?|[_ [?|[? _]]]]]]]]; [tauto|lia|lia|lia|lia]]].
  all: rewrite str_ltb_spec; split;
       [intros; right; split; [tauto|right; split; [lia|right; split; [lia|right; split; [lia|assumption]]]]
       |intros [[? ?]|[_ [?|[_ [?|[_ [?|[_ ?]]]]]]]]; [tauto|lia|lia|lia|assumption]].
Qed.

Lemma before_irrefl a : ~ before a a.
Proof.
  unfold before; intros [[? ?]|[_ [?|[_ [?|[_ [?|[_ H]]]]]]]]; try tauto; try lia.
  exact (name_before_irrefl _ H).
Qed.
Lemma before_trans a b c : before a b -> before b c -> before a c.
Proof.
  unfold before; intros Hab Hbc.
  destruct Hab as [[A B]|[E1 Hab]].
  - destruct Hbc as [[C D]|[E2 _]]; [tauto|]; left; split; [exact A|tauto].
  - destruct Hbc as [[C D]|[E2 Hbc]]; [left; tauto|].
    right; split; [tauto|].
    destruct Hab as [Hab|[Ef Hab]]; [left; destruct Hbc as [?|[? _]]; lia|].
    destruct Hbc as [Hbc|[Ef2 Hbc]]; [left; lia|]; right; split; [lia|].
    destruct Hab as [Hab|[Es Hab]]; [left; destruct Hbc as [?|[? _]]; lia|].
    destruct Hbc as [Hbc|[Es2 Hbc]]; [left; lia|]; right; split; [lia|].
    destruct Hab as [Hab|[Eo Hab]]; [left; destruct Hbc as [?|[? _]]; lia|].
    destruct Hbc as [Hbc|[Eo2 Hbc]]; [left; lia|]; right; split; [lia|].
    eapply name_before_trans; eassumption.
Qed.
Lemma before_total a b : before a b \/ same_rank a b \/ before b a.
Proof.
  unfold before, same_rank, is_deletion.
  destruct (Z.eq_dec (s_alloc a) TO_BE_DELETED) as [Ha|Ha];
  destruct (Z.eq_dec (s_alloc b) TO_BE_DELETED) as [Hb|Hb]; [|tauto|tauto|];
  (destruct (Z.lt_trichotomy (s_failed a) (s_failed b)) as [?|[?|?]]; [tauto| |tauto];
   destruct (Z.lt_trichotomy (s_size b) (s_size a)) as [?|[?|?]]; [tauto| |];
   [|right; right; right; split; [tauto|]; right; split; [lia|]; left; lia];
   destruct (Z.lt_trichotomy (s_offset a) (s_offset b)) as [?|[?|?]];
   [left; right; split; [tauto|]; right; split; [lia|]; right; split; [lia|]; left; lia
   |
   |right; right; right; split; [tauto|]; right; split; [lia|]; right; split; [lia|]; left; lia];
   destruct (name_before_total (s_name a) (s_name b)) as [?|[?|?]];
   [left; right; split; [tauto|]; right; split; [lia|]; right; split; [lia|]; right; split; [lia|assumption]
   |right; left; intuition lia
   |right; right; right; split; [tauto|]; right; split; [lia|]; right; split; [lia|]; right; split; [lia|assumption]]).
Qed.

Lemma pops_spec q s q' : pops q s q' ->
  Permutation q (s :: q') /\ forall t, In t q' -> ~ before t s.
Proof.
  intros [[l1 [l2 [-> ->]]] Hmax]; split.
  - symmetry; apply Permutation_middle.
  - intros t Ht Hb; apply src_less_spec in Hb; rewrite (Hmax t Ht) in Hb; discriminate.
Qed.

Lemma pop_top_pops q s q' : pop_top q = Some (s, q') -> pops q s q'.
Proof.
  revert s q'; induction q as [|a q IH]; intros s q' E; cbn [pop_top] in E; [discriminate|].
  destruct (pop_top q) as [[t r']|] eqn:Ep.
  - specialize (IH _ _ eq_refl); destruct IH as [[l1 [l2 [E1 E2]]] Hmax].
    destruct (src_less a t) eqn:El; injection E as <- <-; split.
    + exists (a :: l1), l2; subst; auto.
    + intros x [<-|Hx]; [|exact (Hmax x Hx)].
      destruct (src_less t a) eqn:E3; [|reflexivity]; exfalso.
      apply src_less_spec in El; apply src_less_spec in E3.
      exact (before_irrefl _ (before_trans _ _ _ El E3)).
    + exists [], q; auto.
    + intros x Hx; destruct (src_less a x) eqn:E3; [|reflexivity]; exfalso.
      subst q; apply in_app_iff in Hx.
      assert (Hx' : x = t \/ In x r') by (subst r'; rewrite in_app_iff; cbn [In] in Hx; intuition congruence).
      destruct Hx' as [->|Hx']; [congruence|].
      specialize (Hmax x Hx').
      apply src_less_spec in E3.
      destruct (before_total x t) as [Hb|[Hs|Hb]].
      * apply src_less_spec in Hb; congruence.
      * assert (before t a).
        { unfold same_rank in Hs; unfold before in E3 |- *.
          destruct Hs as [D [F [S [O N]]]]; rewrite F, S, O, N in E3; tauto. }
        apply src_less_spec in H; congruence.
      * assert (before t a) by (eapply before_trans; eassumption).
        apply src_less_spec in H; congruence.
  - injection E as <- <-.
    assert (q = []) as ->.
    { destruct q as [|b q]; [reflexivity|]; cbn [pop_top] in Ep.
      destruct (pop_top q) as [[u v]|]; [destruct (src_less b u)|]; discriminate. }
    split; [exists [], []; auto|intros t []].
Qed.

Lemma pops_exists q : q <> [] -> exists s q', pops q s q'.
Proof.
  intros Hne; destruct (pop_top q) as [[s q']|] eqn:E; [exists s, q'; apply pop_top_pops, E|exfalso].
  destruct q as [|b q]; [congruence|]; cbn [pop_top] in E.
  destruct (pop_top q) as [[u v]|]; [destruct (src_less b u)|]; discriminate.
Qed.

(** Two possible hand-outs from the same queue have the same rank. *)
Lemma pops_rank q s q' t q'' : pops q s q' -> pops q t q'' -> same_rank s t.
Proof.
  intros H1 H2; apply pops_spec in H1; apply pops_spec in H2.
  destruct H1 as [P1 M1]; destruct H2 as [P2 M2].
  assert (Ht : s = t \/ In t q').
  { assert (In t (s :: q')) by (eapply Permutation_in; [exact P1|]; eapply Permutation_in;
      [symmetry; exact P2|left; reflexivity]). destruct H as [->|?]; auto. }
  assert (Hs : s = t \/ In s q'').
  { assert (In s (t :: q'')) by (eapply Permutation_in; [exact P2|]; eapply Permutation_in;
      [symmetry; exact P1|left; reflexivity]). destruct H as [->|?]; auto. }
  destruct Ht as [->|Ht]; [unfold same_rank; intuition|].
  destruct Hs as [->|Hs]; [unfold same_rank; intuition|].
  destruct (before_total s t) as [H|[H|H]]; [|exact H|].
  - exfalso; exact (M2 s Hs H).
  - exfalso; exact (M1 t Ht H).
Qed.

(** ---- cutting ---- *)
Definition pcount (l : list (Z * Z)) (x : Z) : nat :=
  length (filter (fun b => (fst b <=? x) && (x <? fst b + snd b)) l).

Lemma pcount_app l m x : pcount (l ++ m) x = (pcount l x + pcount m x)%nat.
Proof. unfold pcount; rewrite filter_app, app_length; reflexivity. Qed.

Definition psum (l : list (Z * Z)) : Z := fold_right (fun b n => snd b + n) 0 l.
Lemma psum_app l m : psum (l ++ m) = psum l + psum m.
Proof. unfold psum; induction l as [|b l IH]; cbn [fold_right app]; lia. Qed.

Lemma cut_spec fuel : forall bs off rem l,
  0 <= rem -> (rem = 0 /\ 0 <= bs \/ 0 < bs) -> cut fuel bs off rem = Some l ->
  (forall x, pcount l x = if (off <=? x) && (x <? off + rem) then 1%nat else 0%nat) /\
  Forall (fun b => off <= fst b /\ 0 <= snd b <= bs /\ fst b + snd b <= off + rem /\
                   (0 < rem -> 0 < snd b)) l /\
  psum l = rem /\ l <> [] /\ (rem <= bs -> length l = 1%nat).
Proof.
  induction fuel as [|fuel IH]; intros bs off rem l H0 Hbs E; cbn [cut] in E.
  - destruct (Z.ltb_spec 0 (rem - Z.min rem bs)); [discriminate|injection E as <-].
    assert (Hm : Z.min rem bs = rem) by lia; rewrite Hm.
    repeat split; try (cbn; lia); try discriminate.
    + intros x; unfold pcount; cbn [filter fst snd].
      destruct ((off <=? x) && (x <? off + rem)); reflexivity.
    + constructor; [cbn [fst snd]; lia|constructor].
  - destruct (Z.ltb_spec 0 (rem - Z.min rem bs)).
    + assert (Hm : Z.min rem bs = bs) by lia; rewrite Hm in *.
      destruct (cut fuel bs (off + bs) (rem - bs)) as [m|] eqn:Ec; [injection E as <-|discriminate].
      destruct (IH bs (off + bs) (rem - bs) m ltac:(lia) ltac:(lia) Ec) as [Hc [Hf [Hs [Hne _]]]].
      repeat split; try discriminate.
      * intros x; unfold pcount in *; cbn [filter fst snd].
        specialize (Hc x).
        destruct (Z.leb_spec off x); destruct (Z.ltb_spec x (off + bs)); cbn [andb length];
          rewrite Hc;
          destruct (Z.leb_spec (off + bs) x); destruct (Z.ltb_spec x (off + bs + (rem - bs)));
          destruct (Z.ltb_spec x (off + rem)); cbn [andb]; lia.
      * constructor; [cbn [fst snd]; lia|].
        eapply Forall_impl; [|exact Hf]; intros b Hb; cbv beta in *; lia.
      * unfold psum in *; cbn [fold_right snd]; lia.
      * lia.
    + injection E as <-.
      assert (Hm : Z.min rem bs = rem) by lia; rewrite Hm.
      repeat split; try (cbn; lia); try discriminate.
      * intros x; unfold pcount; cbn [filter fst snd].
        destruct ((off <=? x) && (x <? off + rem)); reflexivity.
      * constructor; [cbn [fst snd]; lia|constructor].
Qed.

Lemma cut_terminates fuel : forall bs off rem,
  0 <= rem -> (rem = 0 /\ 0 <= bs \/ 0 < bs) -> rem / bs <= Z.of_nat fuel ->
  exists l, cut fuel bs off rem = Some l.
Proof.
  induction fuel as [|fuel IH]; intros bs off rem H0 Hbs Hf; cbn [cut].
  - destruct (Z.ltb_spec 0 (rem - Z.min rem bs)); [|eauto]; exfalso.
    assert (0 < bs) by lia.
    assert (1 <= rem / bs) by (apply Z.div_le_lower_bound; lia); lia.
  - destruct (Z.ltb_spec 0 (rem - Z.min rem bs)); [|eauto].
    assert (Hm : Z.min rem bs = bs) by lia; rewrite Hm in *.
    destruct (IH bs (off + bs) (rem - bs)) as [m Em]; [lia|lia| |rewrite Em; eauto].
    replace (rem - bs) with (rem + (-1) * bs) by lia; rewrite Z.div_add by lia; lia.
Qed.

(** The number of iterations allowed does not matter once the loop ended. *)
Lemma cut_fuel_irrelevant fuel : forall fuel' bs off rem l,
  cut fuel bs off rem = Some l -> (fuel <= fuel')%nat -> cut fuel' bs off rem = Some l.
Proof.
  induction fuel as [|fuel IH]; intros fuel' bs off rem l E Hf; destruct fuel' as [|fuel']; cbn [cut] in *;
    try lia; try exact E;
    destruct (0 <? rem - Z.min rem bs) eqn:Eb; try discriminate; try exact E.
  destruct (cut fuel bs (off + Z.min rem bs) (rem - Z.min rem bs)) as [m|] eqn:Ec; [|discriminate].
  rewrite (IH fuel' _ _ _ _ Ec ltac:(lia)); exact E.
Qed.

Lemma cut_diverges fuel : forall bs off rem, bs <= 0 -> 0 < rem -> cut fuel bs off rem = None.
Proof.
  induction fuel as [|fuel IH]; intros bs off rem Hb Hr; cbn [cut];
    (destruct (Z.ltb_spec 0 (rem - Z.min rem bs)); [|lia]); [reflexivity|].
  rewrite IH by lia; reflexivity.
Qed.

Lemma cut_all_spec bs chunks : 0 < bs -> Forall nonempty_interval chunks -> ascending chunks ->
  exists l, cut_all bs chunks = Some l /\
    (forall x, covered chunks x -> pcount l x = 1%nat) /\
    (forall x, ~ covered chunks x -> pcount l x = 0%nat) /\
    Forall (fun b => 0 < snd b <= bs /\
                     exists c, In c chunks /\ iv_start c <= fst b /\ fst b + snd b <= iv_end c) l /\
    psum l = getTotalChunkSize chunks.
Proof.
  intros Hbs; induction chunks as [|c r IH]; intros Hne Has.
  - exists []; split; [reflexivity|]; split; [intros x Hx; destruct (covered_nil x Hx)|].
    split; [reflexivity|]; split; [constructor|reflexivity].
  - inversion Hne as [|? ? Hc Hne']; subst; unfold nonempty_interval in Hc.
    assert (Has' : ascending r) by (inversion Has; [constructor|assumption]).
    destruct (IH Hne' Has') as [m [Em [Hc1 [Hc0 [Hf Hs]]]]].
    cbn [cut_all].
    set (n := iv_end c - iv_start c).
    destruct (cut_terminates (cut_fuel bs n) bs (iv_start c) n) as [l El]; [unfold n; lia|right; exact Hbs| |].
    { unfold cut_fuel; rewrite Z2Nat.id; [apply Z.le_refl|apply Z.div_pos; unfold n; lia]. }
    rewrite El, Em.
    destruct (cut_spec _ bs (iv_start c) n l ltac:(unfold n; lia) (or_intror Hbs) El) as [Gc [Gf [Gs [Gne _]]]].
    assert (Hdis : forall x, iv_start c <= x < iv_end c -> ~ covered r x).
    { clear -Has Hne'. intros x Hx [d [Hd Hr]].
      assert (Hall : forall c r, ascending (c :: r) -> Forall nonempty_interval r ->
                forall d, In d r -> iv_end c <= iv_start d).
      { clear; intros c r; revert c; induction r as [|e r IH]; intros c Ha Hn d Hd; [destruct Hd|].
        inversion Ha; subst; inversion Hn; subst; unfold nonempty_interval in *.
        destruct Hd as [<-|Hd]; [assumption|]; specialize (IH e ltac:(assumption) ltac:(assumption) d Hd); lia. }
      specialize (Hall c r Has Hne' d Hd); lia. }
    exists (l ++ m); split; [reflexivity|]; repeat split.
    + intros x Hx; rewrite pcount_app, Gc; apply covered_cons in Hx.
      replace (iv_start c + n) with (iv_end c) by (unfold n; lia).
      destruct (Z.leb_spec (iv_start c) x); destruct (Z.ltb_spec x (iv_end c)); cbn [andb].
      * rewrite Hc0; [reflexivity|apply Hdis; lia].
      * destruct Hx as [Hx|Hx]; [lia|rewrite Hc1; auto].
      * destruct Hx as [Hx|Hx]; [lia|rewrite Hc1; auto].
      * lia.
    + intros x Hx; rewrite pcount_app, Gc, covered_cons in *.
      replace (iv_start c + n) with (iv_end c) by (unfold n; lia).
      rewrite Hc0 by tauto.
      destruct (Z.leb_spec (iv_start c) x); destruct (Z.ltb_spec x (iv_end c)); cbn [andb]; try reflexivity.
      exfalso; apply Hx; left; lia.
    + apply Forall_app; split.
      * eapply Forall_impl; [|exact Gf]; intros b Hb; cbv beta in *; unfold n in Hb.
        split; [lia|]; exists c; split; [left; reflexivity|lia].
      * eapply Forall_impl; [|exact Hf]; intros b [Hb [d [Hd Hr]]]; split; [lia|].
        exists d; split; [right; exact Hd|exact Hr].
    + rewrite psum_app, Gs, Hs; reflexivity.
Qed.

(** ---- looking up the previous transfer ---- *)
Lemma find_prev_none name l : find_prev name l = None <-> forall f, In f l -> fc_fileName f <> name.
Proof.
  induction l as [|g l IH]; cbn [find_prev]; [split; [intros _ f []|reflexivity]|].
  destruct (str_eqb (fc_fileName g) name) eqn:E.
  - apply str_eqb_eq in E; split; [discriminate|intros H; exfalso; exact (H g (or_introl eq_refl) E)].
  - apply str_eqb_neq in E; rewrite IH; split.
    + intros H f [<-|Hf]; [exact E|exact (H f Hf)].
    + intros H f Hf; exact (H f (or_intror Hf)).
Qed.
Lemma find_prev_some name l f : find_prev name l = Some f -> In f l /\ fc_fileName f = name.
Proof.
  induction l as [|g l IH]; cbn [find_prev]; [discriminate|].
  destruct (str_eqb (fc_fileName g) name) eqn:E.
  - intros H; injection H as <-; apply str_eqb_eq in E; split; [left; reflexivity|exact E].
  - intros H; destruct (IH H) as [A B]; split; [right; exact A|exact B].
Qed.
Lemma find_prev_unique name l f : NoDup (map fc_fileName l) ->
  find_prev name l = Some f <-> In f l /\ fc_fileName f = name.
Proof.
  intros Hn; split; [apply find_prev_some|]; intros [Hin Hname].
  destruct (find_prev name l) as [g|] eqn:E.
  - destruct (find_prev_some _ _ _ E) as [Hg Hgn]; f_equal.
    clear E; induction l as [|h l IH]; [destruct Hin|].
    cbn [map] in Hn; inversion Hn as [|? ? Hnot Hn']; subst.
    destruct Hin as [->|Hin]; destruct Hg as [->|Hg]; try reflexivity.
    + exfalso; apply Hnot; rewrite <- Hgn; apply in_map; exact Hg.
    + exfalso; apply Hnot; rewrite Hgn; apply in_map; exact Hin.
    + exact (IH Hn' Hin Hg).
  - exfalso; rewrite find_prev_none in E; exact (E f Hin Hname).
Qed.

Lemma insert_prev_nodup f l : NoDup (map fc_fileName l) -> NoDup (map fc_fileName (insert_prev f l)).
Proof.
  intros Hn; unfold insert_prev; destruct (find_prev (fc_fileName f) l) eqn:E; [exact Hn|].
  rewrite find_prev_none in E; rewrite map_app; cbn [map].
  apply NoDup_Add with (a := fc_fileName f) (l := map fc_fileName l).
  - rewrite <- (app_nil_r (map fc_fileName l)) at 1; apply Add_app.
  - split; [exact Hn|]; intros Hin; apply in_map_iff in Hin; destruct Hin as [g [Hg Hin]].
    exact (E g Hin Hg).
Qed.
Lemma insert_all_nodup l : forall m, NoDup (map fc_fileName m) ->
  NoDup (map fc_fileName (fold_left (fun m f => insert_prev f m) l m)).
Proof. induction l as [|f l IH]; intros m Hm; cbn [fold_left]; [exact Hm|apply IH, insert_prev_nodup, Hm]. Qed.

Lemma insert_prev_in f l g : In g (insert_prev f l) -> g = f \/ In g l.
Proof.
  unfold insert_prev; destruct (find_prev (fc_fileName f) l); [auto|].
  rewrite in_app_iff; cbn [In]; intuition congruence.
Qed.
Lemma insert_all_in l : forall m g, In g (fold_left (fun m f => insert_prev f m) l m) -> In g l \/ In g m.
Proof.
  induction l as [|f l IH]; intros m g H; cbn [fold_left] in H; [auto|].
  apply IH in H; destruct H as [H|H]; [left; right; exact H|].
  apply insert_prev_in in H; cbn [In]; intuition congruence.
Qed.
(** Every announced name is present afterwards. *)
Lemma insert_prev_name f l name :
  In name (map fc_fileName (insert_prev f l)) <-> name = fc_fileName f \/ In name (map fc_fileName l).
Proof.
  unfold insert_prev; destruct (find_prev (fc_fileName f) l) eqn:E.
  - split; [auto|]; intros [->|H]; [|exact H].
    destruct (find_prev_some _ _ _ E) as [A B]; rewrite <- B; apply in_map, A.
  - rewrite map_app, in_app_iff; cbn [map In]; intuition congruence.
Qed.
Lemma insert_all_name l : forall m name,
  In name (map fc_fileName (fold_left (fun m f => insert_prev f m) l m)) <->
  In name (map fc_fileName l) \/ In name (map fc_fileName m).
Proof.
  induction l as [|f l IH]; intros m name; cbn [fold_left map In]; [tauto|].
  rewrite IH, insert_prev_name; intuition congruence.
Qed.

Lemma max_seq_ge l : forall n0, n0 <= fold_left (fun n f => Z.max n (fc_seqId f + 1)) l n0.
Proof. induction l as [|f l IH]; intros n0; cbn [fold_left]; [lia|]; specialize (IH (Z.max n0 (fc_seqId f + 1))); lia. Qed.
Lemma max_seq_above l : forall n0 f, In f l ->
  fc_seqId f < fold_left (fun n f => Z.max n (fc_seqId f + 1)) l n0.
Proof.
  induction l as [|g l IH]; intros n0 f Hf; [destruct Hf|]; cbn [fold_left].
  destruct Hf as [->|Hf]; [|apply IH; exact Hf].
  pose proof (max_seq_ge l (Z.max n0 (fc_seqId f + 1))); lia.
Qed.
