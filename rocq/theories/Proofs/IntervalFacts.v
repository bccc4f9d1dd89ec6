From Coq Require Export Permutation.
From Verif Require Export Proofs.BytesFacts Model.Intervals Spec.IntervalSpec.

Lemma covered_nil x : ~ covered [] x.
Proof. intros [c [[] _]]. Qed.
Lemma covered_cons c l x : covered (c :: l) x <-> iv_start c <= x < iv_end c \/ covered l x.
Proof.
  split.
  - intros [d [[->|H] Hx]]; [left; exact Hx|right; exists d; auto].
  - intros [H|[d [H Hx]]]; [exists c; split; [left; reflexivity|exact H]|
      exists d; split; [right; exact H|exact Hx]].
Qed.
Lemma covered_app l m x : covered (l ++ m) x <-> covered l x \/ covered m x.
Proof.
  induction l as [|c l IH]; cbn [app].
  - split; [right; assumption|intros [H|H]; [destruct (covered_nil _ H)|exact H]].
  - rewrite !covered_cons, IH; tauto.
Qed.
Lemma covered_perm l m x : Permutation l m -> covered l x -> covered m x.
Proof. intros Hp [c [Hc Hx]]; exists c; split; [eapply Permutation_in; eassumption|exact Hx]. Qed.

Lemma insert_perm c l : Permutation (insert_interval c l) (c :: l).
Proof.
  induction l as [|d l IH]; cbn [insert_interval]; [reflexivity|].
  destruct (iv_start d <? iv_start c); [|reflexivity].
  rewrite IH; apply perm_swap.
Qed.
Lemma sort_perm l : Permutation (sort_intervals l) l.
Proof.
  induction l as [|c l IH]; cbn [sort_intervals fold_right]; [reflexivity|].
  rewrite insert_perm; constructor; exact IH.
Qed.
Lemma insert_sorted c l : sorted_by_start l -> sorted_by_start (insert_interval c l).
Proof.
  induction l as [|d l IH]; intros H; cbn [insert_interval]; [constructor|].
  destruct (Z.ltb_spec (iv_start d) (iv_start c)) as [E|E].
  - assert (Hl : sorted_by_start l) by (inversion H; subst; [constructor|assumption]).
    specialize (IH Hl); destruct l as [|e l]; cbn [insert_interval] in *.
    + constructor; [lia|constructor].
    + destruct (Z.ltb_spec (iv_start e) (iv_start c)); constructor; try assumption; try lia.
      inversion H; subst; assumption.
  - constructor; [lia|exact H].
Qed.
Lemma sort_sorted l : sorted_by_start (sort_intervals l).
Proof.
  induction l as [|c l IH]; cbn [sort_intervals fold_right]; [constructor|].
  apply insert_sorted, IH.
Qed.

Lemma sbs_tail c l : sorted_by_start (c :: l) -> sorted_by_start l.
Proof. intros H; inversion H; subst; [constructor|assumption]. Qed.

Lemma separated_head_le c l : separated (c :: l) -> Forall wf_interval (c :: l) ->
  Forall (fun d => iv_end c < iv_start d) l.
Proof.
  revert c; induction l as [|d l IH]; intros c Hs Hw; [constructor|].
  inversion Hs as [| |? ? ? Hlt Hs']; subst; inversion Hw as [|? ? Hc Hw']; subst.
  constructor; [exact Hlt|].
  specialize (IH d Hs' Hw'); inversion Hw' as [|? ? Hd _]; subst.
  eapply Forall_impl; [|exact IH]; intros e He; cbv beta in *; unfold wf_interval in Hd; lia.
Qed.

Lemma merge_loop_head cur l : exists e r,
  merge_loop cur l = {| iv_start := iv_start cur; iv_end := e |} :: r /\ iv_end cur <= e.
Proof.
  revert cur; induction l as [|c l IH]; intros cur; cbn [merge_loop].
  - exists (iv_end cur), []; destruct cur; split; [reflexivity|cbn; lia].
  - destruct (iv_end cur <? iv_start c).
    + exists (iv_end cur), (merge_loop c l); destruct cur; split; [reflexivity|cbn; lia].
    + destruct (IH {| iv_start := iv_start cur; iv_end := Z.max (iv_end cur) (iv_end c) |})
        as [e [r [E He]]]; exists e, r; cbn [iv_start iv_end] in *; split; [exact E|lia].
Qed.

Lemma merge_loop_spec l : forall cur, sorted_by_start (cur :: l) -> Forall wf_interval (cur :: l) ->
  separated (merge_loop cur l) /\ Forall wf_interval (merge_loop cur l) /\
  forall x, covered (merge_loop cur l) x <-> covered (cur :: l) x.
Proof.
  induction l as [|c l IH]; intros cur Hs Hw; cbn [merge_loop].
  - split; [constructor|]; split; [exact Hw|reflexivity].
  - assert (Hcs : iv_start cur <= iv_start c) by (inversion Hs; subst; assumption).
    inversion Hw as [|? ? Hwc Hw']; subst; inversion Hw' as [|? ? Hwc' Hw'']; subst.
    unfold wf_interval in Hwc, Hwc'.
    destruct (Z.ltb_spec (iv_end cur) (iv_start c)) as [E|E].
    + destruct (IH c (sbs_tail _ _ Hs) Hw') as [Hsep [Hwf Hcov]].
      split; [|split; [constructor; [exact Hwc|exact Hwf]|]].
      * destruct (merge_loop_head c l) as [e [r [Em _]]]; rewrite Em in *.
        constructor; [cbn [iv_start]; lia|exact Hsep].
      * intros x; rewrite covered_cons, (covered_cons cur), Hcov; reflexivity.
    + set (cur' := {| iv_start := iv_start cur; iv_end := Z.max (iv_end cur) (iv_end c) |}).
      assert (Hs' : sorted_by_start (cur' :: l)).
      { apply sbs_tail in Hs; destruct l as [|d l]; [constructor|].
        constructor; [inversion Hs; subst; cbn [cur' iv_start]; lia|apply sbs_tail in Hs; exact Hs]. }
      assert (Hw2 : Forall wf_interval (cur' :: l)).
      { constructor; [unfold wf_interval; cbn [cur' iv_start iv_end]; lia|exact Hw'']. }
      destruct (IH cur' Hs' Hw2) as [Hsep [Hwf Hcov]].
      split; [exact Hsep|]; split; [exact Hwf|].
      intros x; rewrite Hcov, !covered_cons; cbn [cur' iv_start iv_end].
      destruct (Z.max_spec (iv_end cur) (iv_end c)) as [[? ->]|[? ->]]; intuition lia.
Qed.

Lemma merge_sorted_spec l : sorted_by_start l -> Forall wf_interval l ->
  separated (merge_sorted l) /\ Forall wf_interval (merge_sorted l) /\
  forall x, covered (merge_sorted l) x <-> covered l x.
Proof.
  destruct l as [|c l]; intros Hs Hw; cbn [merge_sorted].
  - split; [constructor|]; split; [constructor|reflexivity].
  - apply merge_loop_spec; assumption.
Qed.

Lemma merge_spec l : Forall wf_interval l ->
  separated (mergeChunks l) /\ Forall wf_interval (mergeChunks l) /\
  forall x, covered (mergeChunks l) x <-> covered l x.
Proof.
  intros Hw; unfold mergeChunks.
  assert (Hw' : Forall wf_interval (sort_intervals l)).
  { eapply Permutation_Forall; [apply Permutation_sym, sort_perm|exact Hw]. }
  destruct (merge_sorted_spec _ (sort_sorted l) Hw') as [A [B C]].
  split; [exact A|]; split; [exact B|]; intros x; rewrite C.
  split; apply covered_perm; [apply sort_perm|apply Permutation_sym, sort_perm].
Qed.

(** ---- canonical form ---- *)
Lemma merge_loop_nonempty l : forall cur,
  sorted_by_start (cur :: l) -> Forall nonempty_interval (cur :: l) ->
  Forall nonempty_interval (merge_loop cur l).
Proof.
  induction l as [|c l IH]; intros cur Hs Hw; cbn [merge_loop]; [exact Hw|].
  inversion Hw as [|? ? Hc Hw']; subst; inversion Hw' as [|? ? Hc' Hw'']; subst.
  unfold nonempty_interval in Hc, Hc'.
  destruct (iv_end cur <? iv_start c).
  - constructor; [exact Hc|apply IH; [exact (sbs_tail _ _ Hs)|exact Hw']].
  - apply IH.
    + inversion Hs as [| |? ? ? Hle Hs']; subst; apply sbs_tail in Hs as Hs2.
      destruct l as [|d l]; [constructor|].
      constructor; [inversion Hs2; subst; cbn [iv_start]; lia|apply sbs_tail in Hs2; exact Hs2].
    + constructor; [unfold nonempty_interval; cbn [iv_start iv_end]; lia|exact Hw''].
Qed.

Lemma ne_wf l : Forall nonempty_interval l -> Forall wf_interval l.
Proof. apply Forall_impl; intros c; unfold nonempty_interval, wf_interval; lia. Qed.

Lemma sep_head_min c l x : separated (c :: l) -> Forall wf_interval (c :: l) ->
  covered (c :: l) x -> iv_start c <= x.
Proof.
  intros Hs Hw Hx; apply covered_cons in Hx; destruct Hx as [Hx|[d [Hd Hx]]]; [lia|].
  pose proof (separated_head_le c l Hs Hw) as Hf; rewrite Forall_forall in Hf.
  specialize (Hf d Hd); inversion Hw as [|? ? Hc _]; subst; unfold wf_interval in Hc; lia.
Qed.
Lemma sep_gap c l : separated (c :: l) -> Forall wf_interval (c :: l) -> ~ covered (c :: l) (iv_end c).
Proof.
  intros Hs Hw Hx; apply covered_cons in Hx; destruct Hx as [Hx|[d [Hd Hx]]]; [lia|].
  pose proof (separated_head_le c l Hs Hw) as Hf; rewrite Forall_forall in Hf.
  specialize (Hf d Hd); lia.
Qed.

Lemma separated_tail c l : separated (c :: l) -> separated l.
Proof. intros H; inversion H; subst; [constructor|assumption]. Qed.

Lemma separated_unique l : forall m,
  separated l -> separated m -> Forall nonempty_interval l -> Forall nonempty_interval m ->
  (forall x, covered l x <-> covered m x) -> l = m.
Proof.
  induction l as [|c l IH]; intros m Hl Hm Hnl Hnm Heq.
  - destruct m as [|d m]; [reflexivity|exfalso].
    inversion Hnm as [|? ? Hd _]; subst; unfold nonempty_interval in Hd.
    apply (covered_nil (iv_start d)), Heq, covered_cons; left; lia.
  - destruct m as [|d m].
    { exfalso; inversion Hnl as [|? ? Hd _]; subst; unfold nonempty_interval in Hd.
      apply (covered_nil (iv_start c)), Heq, covered_cons; left; lia. }
    pose proof (ne_wf _ Hnl) as Hwl; pose proof (ne_wf _ Hnm) as Hwm.
    inversion Hnl as [|? ? Hc Hnl']; subst; inversion Hnm as [|? ? Hd Hnm']; subst.
    unfold nonempty_interval in Hc, Hd.
    assert (Hs : iv_start c = iv_start d).
    { assert (iv_start d <= iv_start c).
      { apply (sep_head_min d m); [exact Hm|exact Hwm|apply Heq, covered_cons; left; lia]. }
      assert (iv_start c <= iv_start d); [|lia].
      apply (sep_head_min c l); [exact Hl|exact Hwl|apply Heq, covered_cons; left; lia]. }
    assert (He : iv_end c = iv_end d).
    { destruct (Z.lt_trichotomy (iv_end c) (iv_end d)) as [Hlt|[Heq'|Hgt]]; [exfalso| exact Heq' |exfalso].
      - apply (sep_gap c l Hl Hwl), Heq, covered_cons; left; lia.
      - apply (sep_gap d m Hm Hwm), Heq, covered_cons; left; lia. }
    assert (c = d) by (destruct c as [? ?], d as [? ?]; cbn in Hs, He; subst; reflexivity); subst d.
    f_equal; apply IH; try assumption.
    + exact (separated_tail _ _ Hl).
    + exact (separated_tail _ _ Hm).
    + pose proof (separated_head_le c l Hl Hwl) as Hfl; pose proof (separated_head_le c m Hm Hwm) as Hfm.
      rewrite Forall_forall in Hfl, Hfm.
      intros x; split; intros Hx.
      * assert (Hcx : covered (c :: m) x) by (apply Heq, covered_cons; right; exact Hx).
        apply covered_cons in Hcx; destruct Hcx as [Hcx|Hcx]; [|exact Hcx].
        destruct Hx as [e [He' Hx]]; specialize (Hfl e He'); lia.
      * assert (Hcx : covered (c :: l) x) by (apply Heq, covered_cons; right; exact Hx).
        apply covered_cons in Hcx; destruct Hcx as [Hcx|Hcx]; [|exact Hcx].
        destruct Hx as [e [He' Hx]]; specialize (Hfm e He'); lia.
Qed.

(** Whatever order std::sort leaves equal starts in, the merge is the same. *)
Lemma merge_any_sort l l' : Forall nonempty_interval l -> Permutation l' l -> sorted_by_start l' ->
  merge_sorted l' = mergeChunks l.
Proof.
  intros Hn Hp Hs.
  assert (Hn' : Forall nonempty_interval l') by (eapply Permutation_Forall; [apply Permutation_sym, Hp|exact Hn]).
  assert (Hn2 : Forall nonempty_interval (sort_intervals l))
    by (eapply Permutation_Forall; [apply Permutation_sym, sort_perm|exact Hn]).
  destruct (merge_sorted_spec l' Hs (ne_wf _ Hn')) as [A [B C]].
  destruct (merge_spec l (ne_wf _ Hn)) as [A2 [B2 C2]].
  apply separated_unique; try assumption.
  - destruct l' as [|c l']; [constructor|]; apply merge_loop_nonempty; assumption.
  - unfold mergeChunks; pose proof (sort_sorted l) as Hso; destruct (sort_intervals l) as [|c m];
      [constructor|]; apply merge_loop_nonempty; assumption.
  - intros x; rewrite C, C2; split; apply covered_perm; [exact Hp|apply Permutation_sym, Hp].
Qed.

(** ---- what is missing ---- *)
Definition starts_from (s : Z) (l : list interval) : Prop :=
  match l with [] => True | c :: _ => s <= iv_start c end.

Lemma remaining_loop_spec l : forall cur size,
  separated l -> Forall wf_interval l -> starts_from cur l -> 0 <= cur ->
  exists r, remaining_loop cur l size = Ret r /\
    Forall nonempty_interval r /\
    ascending r /\ Forall (fun c => cur <= iv_start c) r /\
    (forall x, covered r x <->
       cur <= x /\ ~ covered l x /\ (x < size \/ exists c, In c l /\ x < iv_start c)) .
Proof.
  induction l as [|c l IH]; intros cur size Hs Hw Hst H0; cbn [remaining_loop].
  - destruct (Z.ltb_spec cur size) as [E|E].
    + unfold mkInterval; destruct (Z.ltb_spec size cur); [lia|]; cbn [obind].
      eexists; split; [reflexivity|].
      split; [constructor; [unfold nonempty_interval; cbn; lia|constructor]|].
      split; [constructor|]; split; [constructor; [cbn; lia|constructor]|].
      intros x; rewrite covered_cons; cbn [iv_start iv_end]; split.
      * intros [Hx|Hx]; [|destruct (covered_nil _ Hx)].
        split; [lia|]; split; [apply covered_nil|left; lia].
      * intros [Hx [_ [Hx2|[c [[] _]]]]]; left; lia.
    + eexists; split; [reflexivity|]; split; [constructor|].
      split; [constructor|]; split; [constructor|].
      intros x; split; [intros Hx; destruct (covered_nil _ Hx)|].
      intros [Hx [_ [Hx2|[c [[] _]]]]]; lia.
  - cbn [starts_from] in Hst.
    inversion Hw as [|? ? Hc Hw']; subst; unfold wf_interval in Hc.
    pose proof (separated_head_le c l Hs Hw) as Hf; rewrite Forall_forall in Hf.
    assert (Hst' : starts_from (iv_end c) l).
    { destruct l as [|d l]; [exact I|]; cbn; specialize (Hf d (or_introl eq_refl)); lia. }
    destruct (IH (iv_end c) size (separated_tail _ _ Hs) Hw' Hst' ltac:(lia))
      as [r [Er [Hne [Hsr [Hge Hcov]]]]].
    assert (Hcov' : forall x, covered r x <->
       iv_end c <= x /\ ~ covered (c :: l) x /\
       (x < size \/ exists d, In d (c :: l) /\ x < iv_start d)).
    { intros x; rewrite Hcov, covered_cons; split.
      - intros [Hx [Hn Ho]]; split; [lia|]; split; [intros [H|H]; [lia|tauto]|].
        destruct Ho as [Ho|[d [Hd Ho]]]; [left; lia|right; exists d; split; [right; exact Hd|exact Ho]].
      - intros [Hx [Hn Ho]]; split; [lia|]; split; [tauto|].
        destruct Ho as [Ho|[d [[<-|Hd] Ho]]]; [left; lia|lia|right; exists d; auto]. }
    destruct (Z.ltb_spec cur (iv_start c)) as [E|E].
    + unfold mkInterval; destruct (Z.ltb_spec (iv_start c) cur); [lia|]; cbn [obind].
      rewrite Er; cbn [obind]; eexists; split; [reflexivity|].
      split; [constructor; [unfold nonempty_interval; cbn; lia|exact Hne]|].
      split; [|split].
      * destruct r as [|d r]; [constructor|]; constructor; [|exact Hsr].
        inversion Hge; subst; cbn; lia.
      * constructor; [cbn; lia|].
        rewrite Forall_forall in Hge |- *; intros d Hd; specialize (Hge d Hd); cbv beta in *; lia.
      * intros x; rewrite covered_cons, Hcov', covered_cons; cbn [iv_start iv_end]; split.
        -- intros [Hx|[Hx [Hn Ho]]].
           ++ split; [lia|]; split; [|right; exists c; split; [left; reflexivity|lia]].
              intros [Hq|[d [Hd Hq]]]; [lia|]; specialize (Hf d Hd); lia.
           ++ split; [lia|]; split; [exact Hn|exact Ho].
        -- intros [Hx [Hn Ho]].
           destruct (Z.lt_ge_cases x (iv_start c)); [left; lia|right].
           split; [|split; [exact Hn|exact Ho]].
           destruct (Z.lt_ge_cases x (iv_end c)); [exfalso; apply Hn; left; lia|lia].
    + rewrite Er; eexists; split; [reflexivity|].
      assert (cur = iv_start c) by lia; subst cur.
      split; [exact Hne|]; split; [exact Hsr|]; split.
      * rewrite Forall_forall in Hge |- *; intros d Hd; specialize (Hge d Hd); cbv beta in *; lia.
      * intros x; rewrite Hcov'; split.
        -- intros [Hx [Hn Ho]]; split; [lia|]; split; assumption.
        -- intros [Hx [Hn Ho]]; split; [|split; assumption].
           destruct (Z.lt_ge_cases x (iv_end c)); [|lia].
           exfalso; apply Hn, covered_cons; left; lia.
Qed.

Lemma remaining_spec l size :
  separated l -> Forall wf_interval l ->
  exists r, getRemainingChunks l size = Ret r /\
    Forall nonempty_interval r /\ ascending r /\
    (forall x, covered r x <->
       0 <= x /\ ~ covered l x /\ (x < size \/ exists c, In c l /\ x < iv_start c)).
Proof.
  intros Hs Hw.
  assert (Hst : starts_from 0 l).
  { destruct l as [|c l]; [exact I|]; inversion Hw as [|? ? Hc _]; subst; unfold wf_interval in Hc; cbn; lia. }
  destruct (remaining_loop_spec l 0 size Hs Hw Hst ltac:(lia)) as [r [Er [A [B [_ C]]]]].
  exists r; auto.
Qed.

Lemma remaining_exact l size :
  separated l -> Forall wf_interval l -> Forall (fun c => iv_end c <= size) l ->
  exists r, getRemainingChunks l size = Ret r /\
    Forall nonempty_interval r /\ ascending r /\
    (forall x, covered r x <-> 0 <= x < size /\ ~ covered l x).
Proof.
  intros Hs Hw Hle; destruct (remaining_spec l size Hs Hw) as [r [Er [A [B C]]]].
  exists r; split; [exact Er|]; split; [exact A|]; split; [exact B|].
  intros x; rewrite C; split.
  - intros [Hx [Hn [Ho|[c [Hc Ho]]]]]; [split; [lia|exact Hn]|].
    rewrite Forall_forall in Hw, Hle; specialize (Hw c Hc); specialize (Hle c Hc).
    unfold wf_interval in Hw; split; [lia|exact Hn].
  - intros [Hx Hn]; split; [lia|]; split; [exact Hn|left; lia].
Qed.

(** Sizes add up. *)
Lemma remaining_loop_total l : forall cur size r,
  separated l -> Forall wf_interval l -> starts_from cur l ->
  Forall (fun c => iv_end c <= size) l -> cur <= size ->
  remaining_loop cur l size = Ret r ->
  getTotalChunkSize l + getTotalChunkSize r = size - cur.
Proof.
  induction l as [|c l IH]; intros cur size r Hs Hw Hst Hle Hcs Er; cbn [remaining_loop] in Er.
  - destruct (Z.ltb_spec cur size).
    + unfold mkInterval in Er; destruct (Z.ltb_spec size cur); [lia|]; injection Er as <-; cbn; lia.
    + injection Er as <-; cbn; lia.
  - cbn [starts_from] in Hst.
    pose proof (separated_head_le c l Hs Hw) as Hf; rewrite Forall_forall in Hf.
    inversion Hw as [|? ? Hc Hw']; subst; inversion Hle as [|? ? Hlc Hle']; subst.
    unfold wf_interval in Hc.
    assert (Hst' : starts_from (iv_end c) l).
    { destruct l as [|d l]; [exact I|]; cbn; specialize (Hf d (or_introl eq_refl)); lia. }
    cbn [getTotalChunkSize fold_right].
    destruct (Z.ltb_spec cur (iv_start c)).
    + unfold mkInterval in Er; destruct (Z.ltb_spec (iv_start c) cur); [lia|]; cbn [obind] in Er.
      destruct (remaining_loop (iv_end c) l size) as [t| |] eqn:Et; try discriminate.
      injection Er as <-; cbn [getTotalChunkSize fold_right iv_start iv_end].
      specialize (IH (iv_end c) size t (separated_tail _ _ Hs) Hw' Hst' Hle' Hlc Et).
      unfold getTotalChunkSize in IH; lia.
    + specialize (IH (iv_end c) size r (separated_tail _ _ Hs) Hw' Hst' Hle' Hlc Er).
      unfold getTotalChunkSize in IH; unfold getTotalChunkSize; lia.
Qed.

Lemma remaining_total l size r :
  separated l -> Forall wf_interval l -> Forall (fun c => iv_end c <= size) l -> 0 <= size ->
  getRemainingChunks l size = Ret r ->
  getTotalChunkSize l + getTotalChunkSize r = size.
Proof.
  intros Hs Hw Hle H0 Er.
  assert (Hst : starts_from 0 l).
  { destruct l as [|c l]; [exact I|]; inversion Hw as [|? ? Hc _]; subst; unfold wf_interval in Hc; cbn; lia. }
  pose proof (remaining_loop_total l 0 size r Hs Hw Hst Hle H0 Er); lia.
Qed.

(** The list of pieces a peer announces is not checked; it never aborts the
    sender but then the answer may overlap. *)
Lemma remaining_never_crashes l : forall cur size, exists r, remaining_loop cur l size = Ret r.
Proof.
  induction l as [|c l IH]; intros cur size; cbn [remaining_loop].
  - destruct (Z.ltb_spec cur size); [|eauto].
    unfold mkInterval; destruct (Z.ltb_spec size cur); [lia|]; cbn [obind]; eauto.
  - destruct (IH (iv_end c) size) as [r Er].
    destruct (Z.ltb_spec cur (iv_start c)); [|eauto].
    unfold mkInterval; destruct (Z.ltb_spec (iv_start c) cur); [lia|]; cbn [obind].
    rewrite Er; cbn [obind]; eauto.
Qed.

Lemma unmerged_witness : exists l size r x,
  Forall wf_interval l /\ getRemainingChunks l size = Ret r /\ covered l x /\ covered r x.
Proof.
  exists [ {| iv_start := 0; iv_end := 10 |}; {| iv_start := 0; iv_end := 2 |} ], 10,
    [ {| iv_start := 2; iv_end := 10 |} ], 5.
  split; [repeat constructor; cbn; lia|]; split; [reflexivity|]; split.
  - exists {| iv_start := 0; iv_end := 10 |}; cbn; intuition lia.
  - exists {| iv_start := 2; iv_end := 10 |}; cbn; intuition lia.
Qed.
