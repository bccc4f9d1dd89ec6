From Verif Require Export Proofs.SourceQueueFacts Spec.ProtocolSpec.

Lemma times_map name size id al pv bs x :
  times_covered (map (mkSource name size id al pv) bs) x = pcount bs x.
Proof.
  unfold times_covered, pcount; induction bs as [|b bs IH]; [reflexivity|].
  cbn [map filter]; unfold covers at 1; cbn [mkSource s_offset s_size].
  destruct ((fst b <=? x) && (x <? fst b + snd b)); cbn [length]; rewrite IH; reflexivity.
Qed.
Lemma total_map name size id al pv bs :
  total_size (map (mkSource name size id al pv) bs) = psum bs.
Proof. unfold total_size, psum; induction bs as [|b bs IH]; cbn [map fold_right]; [reflexivity|]; rewrite IH; reflexivity. Qed.

Lemma blockSizeFor_bytes mb size : 0 < mb -> blockSizeFor mb size = blockBytes mb.
Proof. intros H; unfold blockSizeFor, blockBytes; destruct (Z.ltb_spec 0 (mb * 1024 * 1024)); lia. Qed.
Lemma blockSizeFor_off mb size : mb <= 0 -> blockSizeFor mb size = size.
Proof. intros H; unfold blockSizeFor; destruct (Z.ltb_spec 0 (mb * 1024 * 1024)); lia. Qed.
Lemma blockSizeFor_cases mb size : 0 <= size ->
  (size = 0 /\ 0 <= blockSizeFor mb size) \/ 0 < blockSizeFor mb size.
Proof.
  intros H; destruct (Z.lt_ge_cases 0 mb) as [Hm|Hm].
  - right; rewrite blockSizeFor_bytes by lia; unfold blockBytes; lia.
  - rewrite blockSizeFor_off by lia; lia.
Qed.

(** The three ways a file can be treated. *)
Definition fresh_case (q : dq) (name : list Z) (size : Z) (bs : list source) (q' : dq) : Prop :=
  (forall f, ~ resumes (q_prev q) name size f) /\
  exists al pv ps, bs = map (mkSource name size (q_next q) al pv) ps /\
    cut_all (blockSizeFor (q_blockSizeMb q) size) [{| iv_start := 0; iv_end := size |}] = Some ps /\
    q' = push_blocks q (q_next q + 1) (q_prevSent q) [{| iv_start := 0; iv_end := size |}] bs /\
    ((forall f, In f (q_prev q) -> fc_fileName f <> name) /\ al = NOT_EXISTS /\ pv = 0 \/
     exists f, In f (q_prev q) /\ fc_fileName f = name /\ size < fc_fileSize f /\
               al = EXISTS_TOO_LARGE /\ pv = fc_seqId f).

Definition resume_case (q : dq) (name : list Z) (size : Z) (bs : list source) (q' : dq) : Prop :=
  exists f missing, resumes (q_prev q) name size f /\
    getRemainingChunks (fc_chunks f) size = Ret missing /\
    ((missing = [] /\ bs = [] /\
      q' = set_prevSent q (q_prevSent q + getTotalChunkSize (fc_chunks f))) \/
     (missing <> [] /\ exists ps,
        cut_all (blockSizeFor (q_blockSizeMb q) size) missing = Some ps /\
        bs = map (mkSource name size (fc_seqId f)
                (if fc_fileSize f <? size then EXISTS_TOO_SMALL else EXISTS_CORRECT_SIZE) 0) ps /\
        q' = push_blocks q (q_next q) (q_prevSent q + getTotalChunkSize (fc_chunks f)) missing bs)).

Lemma create_cases q name size q' :
  NoDup (map fc_fileName (q_prev q)) -> 0 <= size ->
  createIntoQueueInternal q (name, size) = Ret (Some q') ->
  exists bs, fresh_case q name size bs q' \/ resume_case q name size bs q'.
Proof.
  intros Hnd H0 E; unfold createIntoQueueInternal, planFor in E.
  destruct (find_prev name (q_prev q)) as [f|] eqn:Ef.
  - apply find_prev_unique in Ef; [|exact Hnd]; destruct Ef as [Hin Hname].
    assert (Huniq : forall g, In g (q_prev q) -> fc_fileName g = name -> g = f).
    { intros g Hg Hgn; pose proof (proj2 (find_prev_unique name (q_prev q) g Hnd) (conj Hg Hgn)).
      pose proof (proj2 (find_prev_unique name (q_prev q) f Hnd) (conj Hin Hname)); congruence. }
    destruct (Z.ltb_spec size (fc_fileSize f)).
    + cbn [obind] in E; unfold mkInterval in E.
      destruct (Z.ltb_spec size 0); [lia|]; cbn [obind] in E.
      destruct (cut_all _ _) as [ps|] eqn:Ec; [injection E as <-|discriminate].
      eexists; left; split.
      { intros g [Hg [Hgn Hgs]]; rewrite (Huniq g Hg Hgn) in Hgs; lia. }
      exists EXISTS_TOO_LARGE, (fc_seqId f), ps; split; [reflexivity|]; split; [exact Ec|].
      split; [reflexivity|]; right; exists f; auto.
    + destruct (getRemainingChunks (fc_chunks f) size) as [missing| |] eqn:Er; cbn [obind] in E; try discriminate.
      destruct missing as [|c r]; cbn [obind] in E.
      * injection E as <-; exists []; right; exists f, []; split; [repeat split; assumption|].
        split; [exact Er|]; left; auto.
      * destruct (cut_all _ (c :: r)) as [ps|] eqn:Ec; [injection E as <-|discriminate].
        eexists; right; exists f, (c :: r); split; [repeat split; assumption|].
        split; [exact Er|]; right; split; [discriminate|]; exists ps; auto.
  - rewrite find_prev_none in Ef; cbn [obind] in E; unfold mkInterval in E.
    destruct (Z.ltb_spec size 0); [lia|]; cbn [obind] in E.
    destruct (cut_all _ _) as [ps|] eqn:Ec; [injection E as <-|discriminate].
    eexists; left; split.
    { intros g [Hg [Hgn Hgs]]; exact (Ef g Hg Hgn). }
    exists NOT_EXISTS, 0, ps; split; [reflexivity|]; split; [exact Ec|]; split; [reflexivity|]; left; auto.
Qed.

Lemma cut_one mb size : 0 <= size ->
  exists ps, cut_all (blockSizeFor mb size) [{| iv_start := 0; iv_end := size |}] = Some ps /\
    (forall x, pcount ps x = if (0 <=? x) && (x <? size) then 1%nat else 0%nat) /\
    Forall (fun b => 0 <= fst b /\ 0 <= snd b <= blockSizeFor mb size /\ fst b + snd b <= size /\
                     (0 < size -> 0 < snd b)) ps /\
    psum ps = size /\ ps <> [] /\ (mb <= 0 -> length ps = 1%nat).
Proof.
  intros H0; cbn [cut_all iv_start iv_end]; rewrite Z.sub_0_r.
  pose proof (blockSizeFor_cases mb size H0) as Hb.
  set (bs := blockSizeFor mb size) in *.
  destruct (cut_terminates (cut_fuel bs size) bs 0 size H0 Hb) as [l El].
  { unfold cut_fuel. destruct (Z.eq_dec bs 0) as [->|].
    - rewrite Zdiv_0_r; lia.
    - rewrite Z2Nat.id; [apply Z.le_refl|apply Z.div_pos; lia]. }
  rewrite El, app_nil_r; exists l; split; [reflexivity|].
  destruct (cut_spec _ _ _ _ _ H0 Hb El) as [A [B [C [D F]]]].
  rewrite Z.add_0_l in A; split; [exact A|].
  split; [eapply Forall_impl; [|exact B]; intros b Hx; cbv beta in *; lia|].
  split; [exact C|]; split; [exact D|].
  intros Hm; apply F; unfold bs; rewrite blockSizeFor_off by lia; lia.
Qed.

Lemma resumes_unique prev name size f g : NoDup (map fc_fileName prev) ->
  resumes prev name size f -> resumes prev name size g -> f = g.
Proof.
  intros Hnd [A [B _]] [C [D _]].
  pose proof (proj2 (find_prev_unique name prev f Hnd) (conj A B)).
  pose proof (proj2 (find_prev_unique name prev g Hnd) (conj C D)); congruence.
Qed.

Lemma fresh_exact q name size bs q' : 0 <= size -> fresh_case q name size bs q' ->
  exact_blocks (q_prev q) (q_blockSizeMb q) name size bs /\ total_size bs = size.
Proof.
  intros H0 [Hno [al [pv [ps [-> [Ec [_ _]]]]]]].
  destruct (cut_one (q_blockSizeMb q) size H0) as [ps' [Ec' [Hc [Hf [Hs [Hne Hl]]]]]].
  rewrite Ec in Ec'; injection Ec' as <-.
  split; [|rewrite total_map; exact Hs].
  assert (Hal : forall x, ~ already (q_prev q) name size x).
  { intros x [f [Hf' _]]; exact (Hno f Hf'). }
  unfold exact_blocks; split; [|split; [|split; [|split]]].
  - intros x Hx _; rewrite times_map, Hc.
    destruct (Z.leb_spec 0 x); destruct (Z.ltb_spec x size); cbn [andb]; lia.
  - intros x Hx; rewrite times_map, Hc.
    destruct (Z.leb_spec 0 x); destruct (Z.ltb_spec x size); cbn [andb]; try reflexivity.
    exfalso; destruct Hx as [Hx|[Hx|Hx]]; [lia|lia|exact (Hal x Hx)].
  - intros s Hs'; apply in_map_iff in Hs'; destruct Hs' as [b [<- Hb]].
    rewrite Forall_forall in Hf; specialize (Hf b Hb); cbv beta in Hf.
    cbn [mkSource s_name s_fileSize s_failed s_offset s_size].
    repeat split; try lia.
    intros Hm; rewrite <- (blockSizeFor_bytes _ size Hm); lia.
  - intros _ E; apply map_eq_nil in E; exact (Hne E).
  - intros Hm _; rewrite map_length; exact (Hl Hm).
Qed.

Lemma resume_exact q name size bs q' : NoDup (map fc_fileName (q_prev q)) ->
  0 <= size -> pieces_fit (q_prev q) name size -> resume_case q name size bs q' ->
  exact_blocks (q_prev q) (q_blockSizeMb q) name size bs /\
  forall f, resumes (q_prev q) name size f -> getTotalChunkSize (fc_chunks f) + total_size bs = size.
Proof.
  intros Hnd H0 Hfit [f [missing [Hres [Er Hc]]]].
  destruct (Hfit f Hres) as [Hsep [Hwf Hin]].
  destruct (remaining_exact _ _ Hsep Hwf Hin) as [r [Er' [Hne [Hasc Hcov]]]].
  rewrite Er in Er'; injection Er' as <-.
  pose proof (remaining_total _ _ _ Hsep Hwf Hin H0 Er) as Htot.
  assert (Hal : forall x, already (q_prev q) name size x <-> covered (fc_chunks f) x).
  { intros x; split; [intros [g [Hg Hx]]; rewrite (resumes_unique _ _ _ f g Hnd Hres Hg); exact Hx|].
    intros Hx; exists f; auto. }
  assert (Hbsp : exists ps, (bs = map (mkSource name size (fc_seqId f)
       (if fc_fileSize f <? size then EXISTS_TOO_SMALL else EXISTS_CORRECT_SIZE) 0) ps) /\
      (forall x, covered missing x -> pcount ps x = 1%nat) /\
      (forall x, ~ covered missing x -> pcount ps x = 0%nat) /\
      Forall (fun b => 0 < snd b <= blockSizeFor (q_blockSizeMb q) size /\
         exists c, In c missing /\ iv_start c <= fst b /\ fst b + snd b <= iv_end c) ps /\
      psum ps = getTotalChunkSize missing).
  { destruct Hc as [[-> [-> _]]|[Hm [ps [Ec [-> _]]]]].
    - exists []; split; [reflexivity|]; split; [intros x Hx; destruct (covered_nil x Hx)|].
      split; [reflexivity|]; split; [constructor|reflexivity].
    - assert (Hbs : 0 < blockSizeFor (q_blockSizeMb q) size).
      { destruct (blockSizeFor_cases (q_blockSizeMb q) size H0) as [[-> _]|H]; [exfalso|exact H].
        destruct missing as [|c r]; [congruence|].
        inversion Hne as [|? ? Hcn _]; subst; unfold nonempty_interval in Hcn.
        assert (covered (c :: r) (iv_start c)) as Hcc by (apply covered_cons; left; lia).
        apply Hcov in Hcc; lia. }
      destruct (cut_all_spec _ missing Hbs Hne Hasc) as [l [El [C1 [C0 [Hf Hs]]]]].
      rewrite Ec in El; injection El as <-; exists ps; auto. }
  destruct Hbsp as [ps [-> [C1 [C0 [Hf Hs]]]]].
  split.
  2:{ intros g Hg; rewrite <- (resumes_unique _ _ _ f g Hnd Hres Hg), total_map; lia. }
  assert (Hrange : forall c, In c missing -> 0 <= iv_start c /\ iv_end c <= size).
  { intros c Hc'; rewrite Forall_forall in Hne; specialize (Hne c Hc'); unfold nonempty_interval in Hne.
    assert (covered missing (iv_end c - 1)) as Hcc by (exists c; split; [exact Hc'|lia]).
    apply Hcov in Hcc; lia. }
  unfold exact_blocks; split; [|split; [|split; [|split]]].
  - intros x Hx Hnot; rewrite times_map; apply C1, Hcov; rewrite <- Hal; auto.
  - intros x Hx; rewrite times_map; apply C0; rewrite Hcov; intros [Hr Hnc].
    destruct Hx as [Hx|[Hx|Hx]]; [lia|lia|]; apply Hnc, Hal, Hx.
  - intros s Hs'; apply in_map_iff in Hs'; destruct Hs' as [b [<- Hb]].
    rewrite Forall_forall in Hf; specialize (Hf b Hb); cbv beta in Hf.
    destruct Hf as [Hb1 [c [Hc' Hr]]]; specialize (Hrange c Hc').
    cbn [mkSource s_name s_fileSize s_failed s_offset s_size].
    repeat split; try lia.
    intros Hm; rewrite <- (blockSizeFor_bytes _ size Hm); lia.
  - intros Hno; exfalso; exact (Hno f Hres).
  - intros _ Hno; exfalso; exact (Hno f Hres).
Qed.

(** Queueing a file terminates, whatever its size and the block size, when the
    announced pieces make sense. *)
Lemma create_terminates q name size : NoDup (map fc_fileName (q_prev q)) ->
  0 <= size -> pieces_fit (q_prev q) name size ->
  exists q', createIntoQueueInternal q (name, size) = Ret (Some q').
Proof.
  intros Hnd H0 Hfit; unfold createIntoQueueInternal, planFor.
  destruct (cut_one (q_blockSizeMb q) size H0) as [ps [Ec _]].
  destruct (find_prev name (q_prev q)) as [f|] eqn:Ef.
  - apply find_prev_unique in Ef; [|exact Hnd]; destruct Ef as [Hin Hname].
    destruct (Z.ltb_spec size (fc_fileSize f)).
    + cbn [obind]; unfold mkInterval; destruct (Z.ltb_spec size 0); [lia|]; cbn [obind].
      rewrite Ec; eauto.
    + assert (Hres : resumes (q_prev q) name size f) by (repeat split; assumption).
      destruct (Hfit f Hres) as [Hsep [Hwf Hle]].
      destruct (remaining_exact _ _ Hsep Hwf Hle) as [r [Er [Hne [Hasc Hcov]]]].
      rewrite Er; cbn [obind]; destruct r as [|c r]; cbn [obind]; [eauto|].
      assert (Hbs : 0 < blockSizeFor (q_blockSizeMb q) size).
      { destruct (blockSizeFor_cases (q_blockSizeMb q) size H0) as [[-> _]|Hb]; [exfalso|exact Hb].
        inversion Hne as [|? ? Hcn _]; subst; unfold nonempty_interval in Hcn.
        assert (covered (c :: r) (iv_start c)) as Hcc by (apply covered_cons; left; lia).
        apply Hcov in Hcc; lia. }
      destruct (cut_all_spec _ (c :: r) Hbs Hne Hasc) as [l [El _]]; rewrite El; eauto.
  - cbn [obind]; unfold mkInterval; destruct (Z.ltb_spec size 0); [lia|]; cbn [obind].
    rewrite Ec; eauto.
Qed.

(** ---- the whole queue ---- *)
(** What one file contributes. *)
Record group_ok (prev : list file_chunks) (mb base next : Z) (file : list Z * Z) (id : Z)
    (bs : list source) : Prop := {
  g_name : forall s, In s bs -> s_name s = fst file /\ s_fileSize s = snd file /\ s_failed s = 0;
  g_identity : forall s, In s bs -> identity_ok prev (fst file) (snd file) id s;
  g_id : (forall f, ~ resumes prev (fst file) (snd file) f) /\ base <= id < next \/
         exists f, resumes prev (fst file) (snd file) f /\ id = fc_seqId f;
  g_size : 0 <= snd file;
  g_exact : pieces_fit prev (fst file) (snd file) ->
            exact_blocks prev mb (fst file) (snd file) bs /\
            ((forall f, ~ resumes prev (fst file) (snd file) f) -> total_size bs = snd file) /\
            (forall f, resumes prev (fst file) (snd file) f ->
               getTotalChunkSize (fc_chunks f) + total_size bs = snd file);
  g_nodel : forall s, In s bs -> ~ is_deletion s
}.

Record unchanged (q q' : dq) : Prop := {
  u_mb : q_blockSizeMb q' = q_blockSizeMb q;
  u_del : q_delete q' = q_delete q;
  u_prev : q_prev q' = q_prev q;
  u_deq : q_deq q' = q_deq q;
  u_files : q_files q' = q_files q;
  u_init : q_initFinished q' = q_initFinished q
}.

Lemma create_group q file q' base :
  NoDup (map fc_fileName (q_prev q)) -> 0 <= snd file -> base <= q_next q ->
  createIntoQueueInternal q file = Ret (Some q') ->
  exists bs id, q_queue q' = q_queue q ++ bs /\ unchanged q q' /\
    q_next q <= q_next q' /\ q_blocks q' = q_blocks q + zlen bs /\
    group_ok (q_prev q) (q_blockSizeMb q) base (q_next q') file id bs /\
    ((forall f, ~ resumes (q_prev q) (fst file) (snd file) f) -> id = q_next q).
Proof.
  destruct file as [name size]; cbn [fst snd]; intros Hnd H0 Hb E.
  destruct (create_cases _ _ _ _ Hnd H0 E) as [bs [Hf|Hr]].
  - pose proof (fresh_exact _ _ _ _ _ H0 Hf) as [Hex Htot].
    destruct Hf as [Hno [al [pv [ps [Ebs [Ec [-> Hal]]]]]]].
    exists bs, (q_next q); unfold push_blocks;
      cbn [q_queue q_next q_blocks q_blockSizeMb q_delete q_prev q_deq q_files q_initFinished].
    split; [reflexivity|]; split; [constructor; reflexivity|]; split; [lia|]; split; [reflexivity|].
    split; [|reflexivity].
    constructor; cbn [fst snd].
    + intros s Hs; subst bs; apply in_map_iff in Hs; destruct Hs as [b [<- _]]; repeat split.
    + intros s Hs; subst bs; apply in_map_iff in Hs; destruct Hs as [b [<- _]].
      unfold identity_ok; cbn [mkSource s_seqId s_prevSeqId s_alloc].
      split; [reflexivity|]; split; [intros f Hfr; exfalso; exact (Hno f Hfr)|].
      destruct Hal as [[Hn [-> ->]]|[g [Hg [Hgn [Hgs [-> ->]]]]]].
      * split; [auto|]; intros f Hin Hname; exfalso; exact (Hn f Hin Hname).
      * split; [intros Hn; exfalso; exact (Hn g Hg Hgn)|].
        intros f Hin Hname _; split; [reflexivity|].
        pose proof (proj2 (find_prev_unique name _ f Hnd) (conj Hin Hname)).
        pose proof (proj2 (find_prev_unique name _ g Hnd) (conj Hg Hgn)); congruence.
    + left; split; [exact Hno|lia].
    + exact H0.
    + intros _; split; [exact Hex|]; split; [auto|intros f Hfr; exfalso; exact (Hno f Hfr)].
    + intros s Hs; subst bs; apply in_map_iff in Hs; destruct Hs as [b [<- _]].
      unfold is_deletion; cbn [mkSource s_alloc].
      destruct Hal as [[_ [-> _]]|[g [_ [_ [_ [-> _]]]]]]; discriminate.
  - pose proof (fun Hfit => resume_exact _ _ _ _ _ Hnd H0 Hfit Hr) as Hex.
    destruct Hr as [f [missing [Hres [Er Hc]]]].
    exists bs, (fc_seqId f).
    assert (Hbs : forall s, In s bs -> exists b, s = mkSource name size (fc_seqId f)
       (if fc_fileSize f <? size then EXISTS_TOO_SMALL else EXISTS_CORRECT_SIZE) 0 b).
    { destruct Hc as [[_ [-> _]]|[_ [ps [_ [-> _]]]]]; [intros s []|].
      intros s Hs; apply in_map_iff in Hs; destruct Hs as [b [<- _]]; eauto. }
    assert (Hq : q_queue q' = q_queue q ++ bs /\ unchanged q q' /\ q_next q' = q_next q /\
                 q_blocks q' = q_blocks q + zlen bs).
    { destruct Hc as [[_ [-> ->]]|[_ [ps [_ [_ ->]]]]]; unfold set_prevSent, push_blocks;
        cbn [q_queue q_next q_blocks].
      - rewrite app_nil_r; change (zlen (@nil source)) with 0; rewrite Z.add_0_r.
        repeat split.
      - repeat split. }
    destruct Hq as [Hq [Hu [Hn Hbk]]]; split; [exact Hq|]; split; [exact Hu|]; split; [lia|].
    split; [exact Hbk|]; split; [|intros Hno; exfalso; exact (Hno f Hres)].
    constructor; cbn [fst snd].
    + intros s Hs; destruct (Hbs s Hs) as [b ->]; repeat split.
    + intros s Hs; destruct (Hbs s Hs) as [b ->].
      unfold identity_ok; cbn [mkSource s_seqId s_prevSeqId s_alloc].
      split; [reflexivity|]; split.
      { intros g Hg; rewrite (resumes_unique _ _ _ f g Hnd Hres Hg); auto. }
      destruct Hres as [Hin [Hname Hs']]; split.
      { intros Hno; exfalso; exact (Hno f Hin Hname). }
      intros g Hg Hgn Hgs; exfalso.
      pose proof (proj2 (find_prev_unique name _ f Hnd) (conj Hin Hname)).
      pose proof (proj2 (find_prev_unique name _ g Hnd) (conj Hg Hgn)).
      assert (f = g) by congruence; subst g; lia.
    + right; exists f; auto.
    + exact H0.
    + intros Hfit; destruct (Hex Hfit) as [A B]; split; [exact A|]; split; [|exact B].
      intros Hno; exfalso; exact (Hno f Hres).
    + intros s Hs; destruct (Hbs s Hs) as [b ->]; unfold is_deletion; cbn [mkSource s_alloc].
      destruct (fc_fileSize f <? size); discriminate.
Qed.

Definition grp : Type := ((list Z * Z) * Z * list source)%type.
Definition grp_file (g : grp) := fst (fst g).
Definition grp_id (g : grp) := snd (fst g).
Definition grp_blocks (g : grp) := snd g.
Definition fresh (prev : list file_chunks) (file : list Z * Z) : Prop :=
  forall f, ~ resumes prev (fst file) (snd file) f.

Definition groups_ok (prev : list file_chunks) (mb base next : Z) (gs : list grp) : Prop :=
  Forall (fun g => group_ok prev mb base next (grp_file g) (grp_id g) (grp_blocks g)) gs /\
  ForallOrdPairs (fun a b => fresh prev (grp_file a) -> fresh prev (grp_file b) ->
                             grp_id a < grp_id b) gs.

Lemma group_ok_mono prev mb base next next' file id bs : next <= next' ->
  group_ok prev mb base next file id bs -> group_ok prev mb base next' file id bs.
Proof.
  intros Hn [A B C D E F]; constructor; try assumption.
  destruct C as [[C1 C2]|C]; [left; split; [exact C1|lia]|right; exact C].
Qed.

Lemma FOP_snoc {A} (R : A -> A -> Prop) l x :
  ForallOrdPairs R l -> Forall (fun a => R a x) l -> ForallOrdPairs R (l ++ [x]).
Proof.
  induction 1 as [|a l Ha Hl IH]; intros Hx; cbn [app].
  - constructor; constructor.
  - inversion Hx; subst; constructor; [|apply IH; assumption].
    apply Forall_app; split; [exact Ha|constructor; [assumption|constructor]].
Qed.

Lemma groups_snoc prev mb base next next' gs file id bs :
  groups_ok prev mb base next gs -> next <= next' ->
  group_ok prev mb base next' file id bs -> (fresh prev file -> id = next) ->
  groups_ok prev mb base next' (gs ++ [(file, id, bs)]).
Proof.
  intros [HF HO] Hn Hg Hid; split.
  - apply Forall_app; split; [|constructor; [exact Hg|constructor]].
    eapply Forall_impl; [|exact HF]; intros g; apply group_ok_mono; exact Hn.
  - apply FOP_snoc; [exact HO|].
    eapply Forall_impl; [|exact HF]; intros g Hgo Hfa Hfb.
    cbn [grp_id grp_file fst snd] in *.
    rewrite (Hid Hfb).
    destruct (g_id _ _ _ _ _ _ _ Hgo) as [[_ Hlt]|[f [Hres _]]]; [lia|].
    exfalso; exact (Hfa f Hres).
Qed.

Lemma unchanged_trans a b c : unchanged a b -> unchanged b c -> unchanged a c.
Proof. intros [? ? ? ? ? ?] [? ? ? ? ? ?]; constructor; congruence. Qed.

Lemma create_all_groups files : forall q q' base gs,
  NoDup (map fc_fileName (q_prev q)) -> Forall (fun f => 0 <= snd f) files -> base <= q_next q ->
  groups_ok (q_prev q) (q_blockSizeMb q) base (q_next q) gs ->
  q_queue q = concat (map grp_blocks gs) -> q_blocks q = zlen (q_queue q) ->
  create_all q files = Ret (Some q') ->
  exists hs, map grp_file hs = files /\ unchanged q q' /\ q_next q <= q_next q' /\
    groups_ok (q_prev q) (q_blockSizeMb q) base (q_next q') (gs ++ hs) /\
    q_queue q' = concat (map grp_blocks (gs ++ hs)) /\ q_blocks q' = zlen (q_queue q').
Proof.
  induction files as [|f files IH]; intros q q' base gs Hnd Hf Hb Hg Hq Hbl E; cbn [create_all] in E.
  - injection E as <-; exists []; rewrite app_nil_r; split; [reflexivity|].
    split; [constructor; reflexivity|]; split; [lia|]; auto.
  - inversion Hf as [|? ? Hf1 Hf2]; subst.
    destruct (createIntoQueueInternal q f) as [[q1|]| |] eqn:E1; cbn [obind] in E; try discriminate.
    destruct (create_group q f q1 base Hnd Hf1 Hb E1) as [bs [id [Hq1 [Hu [Hn [Hb1 [Hgo Hid]]]]]]].
    pose proof (groups_snoc _ _ _ _ _ _ _ _ _ Hg Hn Hgo Hid) as Hg1.
    destruct (IH q1 q' base (gs ++ [(f, id, bs)])) as [hs [Hh [Hu2 [Hn2 [Hg2 [Hq2 Hb2]]]]]].
    + rewrite (u_prev _ _ Hu); exact Hnd.
    + exact Hf2.
    + lia.
    + rewrite (u_prev _ _ Hu), (u_mb _ _ Hu); exact Hg1.
    + rewrite map_app, concat_app; cbn [map concat grp_blocks snd]; rewrite app_nil_r.
      rewrite Hq1, Hq; reflexivity.
    + rewrite Hq1, zlen_app; lia.
    + exact E.
    + exists ((f, id, bs) :: hs).
      assert (Eapp : gs ++ (f, id, bs) :: hs = (gs ++ [(f, id, bs)]) ++ hs) by (rewrite <- app_assoc; reflexivity).
      split; [cbn [map grp_file fst]; rewrite Hh; reflexivity|].
      split; [exact (unchanged_trans _ _ _ Hu Hu2)|]; split; [lia|].
      rewrite Eapp, <- (u_prev _ _ Hu), <- (u_mb _ _ Hu); auto.
Qed.

(** The deletions that should have been queued. *)
Definition deletions (del init : bool) (prev : list file_chunks) (files : list (list Z * Z)) : list file_chunks :=
  if del && init then filter (fun f => negb (has_name (fc_fileName f) files)) prev else [].

Lemma deletions_off_prev del init files : deletions del init [] files = [].
Proof. unfold deletions; destruct (del && init); reflexivity. Qed.

(** enqueueFilesToBeDeleted when no deletion has been queued yet. *)
Lemma enqueue_del_spec q :
  let extra := deletions (q_delete q) (q_initFinished q) (q_prev q) (q_files q) in
  let q' := enqueueFilesToBeDeleted q in
  q_queue q' = q_queue q ++ map deletion_source extra /\
  q_files q' = q_files q ++ map (fun f => (fc_fileName f, 0)) extra /\
  q_blocks q' = q_blocks q + zlen extra /\
  q_blockSizeMb q' = q_blockSizeMb q /\ q_delete q' = q_delete q /\ q_prev q' = q_prev q /\
  q_deq q' = q_deq q /\ q_initFinished q' = q_initFinished q /\ q_next q' = q_next q.
Proof.
  cbv zeta; unfold enqueueFilesToBeDeleted, deletions.
  destruct (q_delete q) eqn:Ed; cbn [negb andb].
  2:{ cbn [map]; rewrite !app_nil_r; change (zlen (@nil file_chunks)) with 0; repeat split; lia || congruence. }
  destruct (q_initFinished q) eqn:Ei; cbn [negb orb].
  2:{ cbn [map]; rewrite !app_nil_r; change (zlen (@nil file_chunks)) with 0; repeat split; lia || congruence. }
  destruct (q_prev q) as [|f r] eqn:Ep.
  { cbn [filter map]; rewrite !app_nil_r; change (zlen (@nil file_chunks)) with 0; repeat split; lia || congruence. }
  repeat split.
Qed.

Record winv (mb : Z) (del : bool) (w : qworld) (base : Z) (gs : list grp) : Prop := {
  i_mb : q_blockSizeMb (w_q w) = mb;
  i_del : q_delete (w_q w) = del;
  i_nodup : NoDup (map fc_fileName (q_prev (w_q w)));
  i_prev0 : w_prevSet w = false -> q_prev (w_q w) = [];
  i_base : base <= q_next (w_q w);
  i_below : forall f, In f (q_prev (w_q w)) -> fc_seqId f < base;
  i_groups : groups_ok (q_prev (w_q w)) mb base (q_next (w_q w)) gs;
  i_files : map grp_file gs = w_discovered w;
  i_sizes : Forall (fun f => 0 <= snd f) (w_discovered w);
  i_live : w_live w = concat (map grp_blocks gs) ++
             map deletion_source (deletions del (q_initFinished (w_q w)) (q_prev (w_q w)) (w_discovered w));
  i_qfiles : q_files (w_q w) = w_discovered w ++
             map (fun f => (fc_fileName f, 0))
               (deletions del (q_initFinished (w_q w)) (q_prev (w_q w)) (w_discovered w));
  i_deq : q_deq (w_q w) = zlen (w_handed w) - zlen (w_returned w);
  i_deq0 : 0 <= q_deq (w_q w);
  i_perm : Permutation (w_created w ++ w_returned w)
             (q_queue (w_q w) ++ w_handed w ++ w_unopened w ++ w_discarded w);
  i_blocks : q_blocks (w_q w) = zlen (w_live w)
}.

Lemma appended_app (l m : list source) : appended l (l ++ m) = m.
Proof. unfold appended; rewrite skipn_app, skipn_all, Nat.sub_diag; reflexivity. Qed.

Lemma return_spec l : forall q q', returnToQueue q l = Ret q' ->
  q' = set_queue q (q_queue q ++ l) (q_deq q - zlen l) /\ (0 <= q_deq q -> 0 <= q_deq q').
Proof.
  induction l as [|s l IH]; intros q q' E; cbn [returnToQueue] in E.
  - injection E as <-; rewrite app_nil_r; change (zlen (@nil source)) with 0; rewrite Z.sub_0_r.
    split; [destruct q; reflexivity|auto].
  - destruct (Z.leb_spec (q_deq q) 0); [discriminate|].
    destruct (IH _ _ E) as [-> Hd]; cbn [q_queue q_deq set_queue] in *; split.
    + rewrite zlen_cons, <- app_assoc; unfold set_queue.
      cbn [q_blockSizeMb q_delete q_prev q_next q_total q_entries q_blocks q_prevSent q_files q_initFinished app].
      f_equal; lia.
    + intros _; apply Hd; lia.
Qed.

(** Returning fails only when more blocks come back than were handed out. *)
Lemma return_total l : forall q, zlen l <= q_deq q -> exists q', returnToQueue q l = Ret q'.
Proof.
  induction l as [|s l IH]; intros q H; cbn [returnToQueue]; [eauto|].
  rewrite zlen_cons in H; pose proof (zlen_nonneg l).
  destruct (Z.leb_spec (q_deq q) 0); [lia|]; apply IH; cbn [q_deq set_queue]; lia.
Qed.

Lemma winv_init mb del : winv mb del (qworld_init mb del) 1 [].
Proof.
  constructor; cbn [qworld_init w_q w_prevSet w_created w_live w_discarded w_handed w_unopened
                    w_returned w_discovered dq_init q_blockSizeMb q_delete q_prev q_next q_queue q_deq
                    q_files q_initFinished q_blocks map concat app]; try reflexivity; try lia.
  - constructor.
  - intros f [].
  - split; constructor.
  - constructor.
  - unfold deletions; rewrite andb_false_r; reflexivity.
  - unfold deletions; rewrite andb_false_r; reflexivity.
Qed.

Lemma winv_step mb del w w' base gs : winv mb del w base gs -> qstep w w' ->
  exists base' gs', winv mb del w' base' gs'.
Proof.
  intros I St; destruct I as [Imb Idel Ind Ip0 Ibase Ibel Igr Ifiles Isz Ilive Iqf Ideq Ideq0 Iperm Ibl].
  destruct St as [w file q' Hinit Hsz E|w Hinit|w l q' Hps E|w s rest Hpop|w s rest Hpop|w l q' E].
  - (* discover *)
    unfold createIntoQueue in E.
    assert (Hdel0 : deletions del (q_initFinished (w_q w)) (q_prev (w_q w)) (w_discovered w) = [])
      by (unfold deletions; rewrite Hinit, andb_false_r; reflexivity).
    rewrite Hdel0 in Ilive, Iqf; cbn [map] in Ilive, Iqf; rewrite app_nil_r in Ilive, Iqf.
    destruct (create_group (add_file (w_q w) file) file q' base Ind Hsz Ibase E)
      as [bs [id [Hq [Hu [Hn [Hb [Hgo Hid]]]]]]].
    cbn [add_file q_queue q_next q_blocks q_prev q_blockSizeMb q_delete q_deq q_files q_initFinished] in *.
    destruct Hu as [U1 U2 U3 U4 U5 U6];
      cbn [add_file q_queue q_next q_blocks q_prev q_blockSizeMb q_delete q_deq q_files q_initFinished] in *.
    exists base, (gs ++ [(file, id, bs)]).
    assert (Hap : appended (q_queue (w_q w)) (q_queue q') = bs) by (rewrite Hq; apply appended_app).
    constructor; cbn [w_q w_prevSet w_created w_live w_discarded w_handed w_unopened w_returned w_discovered].
    + congruence.
    + congruence.
    + rewrite U3; exact Ind.
    + rewrite U3; exact Ip0.
    + lia.
    + rewrite U3; exact Ibel.
    + rewrite U3; subst mb; apply (groups_snoc _ _ _ _ _ _ _ _ _ Igr Hn Hgo Hid).
    + rewrite map_app, Ifiles; reflexivity.
    + apply Forall_app; split; [exact Isz|constructor; [exact Hsz|constructor]].
    + unfold deletions; rewrite U6, Hinit, andb_false_r; cbn [map]; rewrite app_nil_r.
      rewrite map_app, concat_app, Hap, Ilive; cbn [map concat grp_blocks snd]; rewrite app_nil_r; reflexivity.
    + unfold deletions; rewrite U6, Hinit, andb_false_r; cbn [map]; rewrite app_nil_r.
      rewrite U5, Iqf; reflexivity.
    + rewrite U4; exact Ideq.
    + rewrite U4; exact Ideq0.
    + rewrite Hap, Hq.
      rewrite <- !app_assoc.
      transitivity (bs ++ w_created w ++ w_returned w); [apply Permutation_app_swap_app|].
      transitivity (bs ++ q_queue (w_q w) ++ w_handed w ++ w_unopened w ++ w_discarded w);
        [apply Permutation_app_head; exact Iperm|apply Permutation_app_swap_app].
    + rewrite Hap, zlen_app, Hb, Ibl; reflexivity.
  - (* init finished *)
    assert (Hdel0 : deletions del (q_initFinished (w_q w)) (q_prev (w_q w)) (w_discovered w) = [])
      by (unfold deletions; rewrite Hinit, andb_false_r; reflexivity).
    rewrite Hdel0 in Ilive, Iqf; cbn [map] in Ilive, Iqf; rewrite app_nil_r in Ilive, Iqf.
    unfold finishInit.
    match goal with |- context [enqueueFilesToBeDeleted ?x] => set (q1 := x) end.
    pose proof (enqueue_del_spec q1) as D; cbv zeta in D.
    destruct D as [D1 [D2 [D3 [D4 [D5 [D6 [D7 [D8 D9]]]]]]]].
    unfold q1 in D1, D2, D3, D4, D5, D6, D7, D8, D9;
      cbn [q_queue q_next q_blocks q_prev q_blockSizeMb q_delete q_deq q_files q_initFinished] in *;
      fold q1 in D1, D2, D3, D4, D5, D6, D7, D8, D9.
    rewrite Idel, Iqf in *.
    set (ext := deletions del true (q_prev (w_q w)) (w_discovered w)) in *.
    assert (Hap : appended (q_queue (w_q w)) (q_queue (enqueueFilesToBeDeleted q1)) = map deletion_source ext)
      by (rewrite D1; apply appended_app).
    exists base, gs.
    constructor; cbn [w_q w_prevSet w_created w_live w_discarded w_handed w_unopened w_returned w_discovered];
      rewrite ?Hap, ?D4, ?D5, ?D6, ?D7, ?D8, ?D9; try assumption; try reflexivity.
    + rewrite Ilive; reflexivity.
    + rewrite D1, <- !app_assoc.
      transitivity (map deletion_source ext ++ w_created w ++ w_returned w); [apply Permutation_app_swap_app|].
      transitivity (map deletion_source ext ++ q_queue (w_q w) ++ w_handed w ++ w_unopened w ++ w_discarded w);
        [apply Permutation_app_head; exact Iperm|apply Permutation_app_swap_app].
    + rewrite D3, zlen_app, Ibl; f_equal; unfold zlen; rewrite map_length; reflexivity.
  - (* previous list *)
    specialize (Ip0 Hps).
    unfold setPreviouslyReceivedChunks in E.
    destruct (Z.eqb_spec (q_deq (w_q w)) 0) as [Hd0|]; cbn [negb] in E; [|discriminate].
    rewrite Ip0 in *.
    rewrite deletions_off_prev in Ilive, Iqf; cbn [map] in Ilive, Iqf; rewrite app_nil_r in Ilive, Iqf.
    match type of E with obind (create_all ?x _) _ = _ => set (q0 := x) in * end.
    destruct (create_all q0 (q_files q0)) as [[q1|]| |] eqn:Ec; cbn [obind] in E; try discriminate.
    injection E as <-.
    assert (Hnd0 : NoDup (map fc_fileName (q_prev q0))).
    { unfold q0; cbn [q_prev]; apply insert_all_nodup; constructor. }
    assert (Hf0 : q_files q0 = w_discovered w) by (unfold q0; cbn [q_files]; exact Iqf).
    destruct (create_all_groups (q_files q0) q0 q1 (q_next q0) [] Hnd0) as [hs [Hh [Hu [Hn [Hg [Hq Hb]]]]]].
    { rewrite Hf0; exact Isz. }
    { lia. }
    { split; constructor. }
    { reflexivity. }
    { reflexivity. }
    { exact Ec. }
    cbn [app] in Hg, Hq.
    pose proof (enqueue_del_spec q1) as D; cbv zeta in D.
    destruct D as [D1 [D2 [D3 [D4 [D5 [D6 [D7 [D8 D9]]]]]]]].
    destruct Hu as [U1 U2 U3 U4 U5 U6].
    assert (M1 : q_delete q1 = del) by (rewrite U2; exact Idel).
    assert (M2 : q_initFinished q1 = q_initFinished (w_q w)) by (rewrite U6; reflexivity).
    assert (M3 : q_files q1 = w_discovered w) by (rewrite U5; exact Hf0).
    assert (M4 : q_deq q1 = q_deq (w_q w)) by (rewrite U4; reflexivity).
    assert (M5 : q_blockSizeMb q1 = mb) by (rewrite U1; exact Imb).
    exists (q_next q0), hs.
    constructor; cbn [w_q w_prevSet w_created w_live w_discarded w_handed w_unopened w_returned w_discovered].
    + congruence.
    + congruence.
    + rewrite D6, U3; exact Hnd0.
    + discriminate.
    + lia.
    + rewrite D6, U3; unfold q0; cbn [q_prev q_next]; intros f Hf.
      apply insert_all_in in Hf; destruct Hf as [Hf|[]]; apply max_seq_above, Hf.
    + rewrite D6, D9, U3. replace mb with (q_blockSizeMb q0) by (unfold q0; exact Imb). exact Hg.
    + rewrite Hh; exact Hf0.
    + exact Isz.
    + rewrite D1, D8, D6, M1, M3, Hq; reflexivity.
    + rewrite D2, D8, D6, M1, M3; reflexivity.
    + rewrite D7, M4; exact Ideq.
    + rewrite D7, M4; exact Ideq0.
    + rewrite <- !app_assoc.
      transitivity (q_queue (enqueueFilesToBeDeleted q1) ++ w_created w ++ w_returned w);
        [apply Permutation_app_swap_app|].
      apply Permutation_app_head.
      transitivity (q_queue (w_q w) ++ w_handed w ++ w_unopened w ++ w_discarded w); [exact Iperm|].
      transitivity ((w_handed w ++ w_unopened w ++ w_discarded w) ++ q_queue (w_q w));
        [apply Permutation_app_comm|rewrite <- !app_assoc; reflexivity].
    + rewrite D3, D1, Hb, zlen_app; f_equal; unfold zlen; rewrite map_length; reflexivity.
  - (* hand out *)
    destruct (pops_spec _ _ _ Hpop) as [Hp _].
    exists base, gs; constructor;
      cbn [w_q w_prevSet w_created w_live w_discarded w_handed w_unopened w_returned w_discovered
           set_queue q_queue q_next q_blocks q_prev q_blockSizeMb q_delete q_deq q_files q_initFinished];
      try assumption.
    + rewrite zlen_app; change (zlen [s]) with 1; lia.
    + lia.
    + etransitivity; [exact Iperm|].
      transitivity ((s :: rest) ++ w_handed w ++ w_unopened w ++ w_discarded w);
        [apply Permutation_app_tail; exact Hp|].
      rewrite <- !app_assoc; cbn [app].
      transitivity (rest ++ s :: w_handed w ++ w_unopened w ++ w_discarded w); [apply Permutation_middle|].
      apply Permutation_app_head, Permutation_middle.
  - (* open failed *)
    destruct (pops_spec _ _ _ Hpop) as [Hp _].
    exists base, gs; constructor;
      cbn [w_q w_prevSet w_created w_live w_discarded w_handed w_unopened w_returned w_discovered
           set_queue q_queue q_next q_blocks q_prev q_blockSizeMb q_delete q_deq q_files q_initFinished];
      try assumption.
    etransitivity; [exact Iperm|].
    transitivity ((s :: rest) ++ w_handed w ++ w_unopened w ++ w_discarded w);
      [apply Permutation_app_tail; exact Hp|].
    rewrite <- !app_assoc; cbn [app].
    transitivity (rest ++ s :: w_handed w ++ w_unopened w ++ w_discarded w); [apply Permutation_middle|].
    apply Permutation_app_head.
    transitivity (w_handed w ++ s :: w_unopened w ++ w_discarded w); [apply Permutation_middle|].
    apply Permutation_app_head, Permutation_middle.
  - (* return *)
    destruct (return_spec _ _ _ E) as [-> Hd].
    exists base, gs; constructor;
      cbn [w_q w_prevSet w_created w_live w_discarded w_handed w_unopened w_returned w_discovered
           set_queue q_queue q_next q_blocks q_prev q_blockSizeMb q_delete q_deq q_files q_initFinished];
      try assumption.
    + rewrite zlen_app; lia.
    + exact (Hd Ideq0).
    + rewrite <- app_assoc.
      transitivity (l ++ w_created w ++ w_returned w).
      { rewrite app_assoc; apply Permutation_app_comm. }
      transitivity (l ++ q_queue (w_q w) ++ w_handed w ++ w_unopened w ++ w_discarded w);
        [apply Permutation_app_head; exact Iperm|apply Permutation_app_swap_app].
Qed.

Lemma winv_reach mb del w : qreach mb del w -> exists base gs, winv mb del w base gs.
Proof.
  induction 1 as [|w w' Hr [base [gs IH]] St]; [exists 1, []; apply winv_init|].
  exact (winv_step _ _ _ _ _ _ IH St).
Qed.

(** ---- consequences ---- *)
Lemma create_exact q name size :
  NoDup (map fc_fileName (q_prev q)) -> 0 <= size -> pieces_fit (q_prev q) name size ->
  exists q' bs, createIntoQueue q (name, size) = Ret (Some q') /\
    q_queue q' = q_queue q ++ bs /\
    exact_blocks (q_prev q) (q_blockSizeMb q) name size bs.
Proof.
  intros Hnd H0 Hfit; unfold createIntoQueue.
  destruct (create_terminates (add_file q (name, size)) name size Hnd H0 Hfit) as [q' E].
  exists q'; rewrite E.
  destruct (create_group (add_file q (name, size)) (name, size) q' (q_next q) Hnd H0
              (Z.le_refl _) E) as [bs [id [Hq [_ [_ [_ [Hg _]]]]]]].
  exists bs; split; [reflexivity|]; split; [exact Hq|].
  exact (proj1 (g_exact _ _ _ _ _ _ _ Hg Hfit)).
Qed.

Lemma create_counters q name size q' bs :
  NoDup (map fc_fileName (q_prev q)) -> 0 <= size -> pieces_fit (q_prev q) name size ->
  createIntoQueue q (name, size) = Ret (Some q') -> q_queue q' = q_queue q ++ bs ->
  q_total q' = q_total q + total_size bs /\ q_blocks q' = q_blocks q + zlen bs /\
  (q_prevSent q' - q_prevSent q) + total_size bs = size /\
  (forall f, resumes (q_prev q) name size f ->
     q_prevSent q' - q_prevSent q = getTotalChunkSize (fc_chunks f)).
Proof.
  intros Hnd H0 Hfit E Hbs; unfold createIntoQueue in E.
  destruct (create_cases (add_file q (name, size)) name size q' Hnd H0 E) as [bs' [Hf|Hr]].
  - pose proof (fresh_exact _ _ _ _ _ H0 Hf) as [_ Ht].
    destruct Hf as [Hno [al [pv [ps [_ [_ [Eq _]]]]]]]; subst q'.
    unfold push_blocks, add_file in *; cbn [q_queue q_total q_prevSent q_blocks q_prev] in *.
    apply app_inv_head in Hbs; subst bs'.
    rewrite Ht; cbn [getTotalChunkSize fold_right iv_end iv_start].
    split; [lia|]; split; [reflexivity|]; split; [lia|].
    intros f Hfr; exfalso; exact (Hno f Hfr).
  - pose proof (resume_exact (add_file q (name, size)) name size bs' q' Hnd H0 Hfit Hr) as [_ Ht].
    destruct Hr as [f [missing [Hres [Er Hc]]]].
    specialize (Ht f Hres).
    assert (Hu : forall g, resumes (q_prev q) name size g -> g = f).
    { intros g Hg; exact (resumes_unique _ _ _ g f Hnd Hg Hres). }
    destruct (Hfit f Hres) as [Hsep [Hwf Hin]].
    pose proof (remaining_total _ _ _ Hsep Hwf Hin H0 Er) as Htot.
    destruct Hc as [[-> [-> Eq]]|[_ [ps [_ [_ Eq]]]]]; subst q';
      unfold set_prevSent, push_blocks, add_file in *;
      cbn [q_queue q_total q_prevSent q_blocks q_prev] in *.
    + assert (bs = []) as -> by (rewrite <- (app_nil_r (q_queue q)) in Hbs at 1; apply app_inv_head in Hbs; auto).
      change (total_size []) with 0 in *; change (zlen (@nil source)) with 0.
      split; [lia|]; split; [lia|]; split; [lia|]; intros g Hg; rewrite (Hu g Hg); lia.
    + apply app_inv_head in Hbs; subst bs'.
      split; [lia|]; split; [reflexivity|]; split; [lia|]; intros g Hg; rewrite (Hu g Hg); lia.
Qed.

Lemma cut_fuel_enough fuel bs off rem l : 0 <= rem ->
  cut fuel bs off rem = Some l -> cut (cut_fuel bs rem) bs off rem = Some l.
Proof.
  intros H0 E.
  assert (Hc : rem = 0 /\ 0 <= bs \/ 0 < bs \/ (bs < 0 /\ rem = 0) \/ (bs <= 0 /\ 0 < rem)) by lia.
  destruct Hc as [Hc|[Hc|[[Hb Hr]|[Hb Hr]]]].
  - destruct (cut_terminates (cut_fuel bs rem) bs off rem H0 (or_introl Hc)) as [m Em].
    { destruct Hc as [-> _]; destruct (Z.eq_dec bs 0) as [->|]; [cbn; lia|rewrite Z.div_0_l by lia; lia]. }
    destruct (Nat.le_ge_cases fuel (cut_fuel bs rem)) as [Hf|Hf].
    + exact (cut_fuel_irrelevant _ _ _ _ _ _ E Hf).
    + rewrite (cut_fuel_irrelevant _ _ _ _ _ _ Em Hf) in E; congruence.
  - destruct (cut_terminates (cut_fuel bs rem) bs off rem H0 (or_intror Hc)) as [m Em].
    { unfold cut_fuel; rewrite Z2Nat.id; [apply Z.le_refl|apply Z.div_pos; lia]. }
    destruct (Nat.le_ge_cases fuel (cut_fuel bs rem)) as [Hf|Hf].
    + exact (cut_fuel_irrelevant _ _ _ _ _ _ E Hf).
    + rewrite (cut_fuel_irrelevant _ _ _ _ _ _ Em Hf) in E; congruence.
  - exfalso; subst rem; destruct fuel as [|fuel]; cbn [cut] in E;
      (destruct (Z.ltb_spec 0 (0 - Z.min 0 bs)); [|lia]); [discriminate|].
    rewrite cut_diverges in E by lia; discriminate.
  - rewrite cut_diverges in E by lia; discriminate.
Qed.

Definition hostile_entry : file_chunks :=
  {| fc_seqId := 1; fc_fileName := [97]; fc_fileSize := 0;
     fc_chunks := [{| iv_start := 5; iv_end := 5 |}] |}.

Lemma hostile_pieces : exists q name,
  In hostile_entry (q_prev q) /\ file_chunks_ok hostile_entry /\
  getRemainingChunks (fc_chunks hostile_entry) 0 = Ret [{| iv_start := 0; iv_end := 5 |}] /\
  (forall fuel, cut fuel (blockSizeFor (q_blockSizeMb q) 0) 0 5 = None) /\
  createIntoQueue q (name, 0) = Ret None.
Proof.
  exists {| q_blockSizeMb := -1; q_delete := false; q_prev := [hostile_entry]; q_next := 2; q_total := 0;
            q_entries := 0; q_blocks := 0; q_prevSent := 0; q_queue := []; q_deq := 0; q_files := [];
            q_initFinished := false |}, [97].
  split; [left; reflexivity|].
  split; [unfold file_chunks_ok, in_nat63; repeat constructor; vm_compute; congruence|].
  split; [reflexivity|]; split; [|reflexivity].
  intros fuel; apply cut_diverges; cbn; lia.
Qed.

Lemma FOP_in {A} (R : A -> A -> Prop) l : ForallOrdPairs R l ->
  forall x y, In x l -> In y l -> x = y \/ R x y \/ R y x.
Proof.
  induction 1 as [|a l Ha Hl IH]; intros x y Hx Hy; [destruct Hx|].
  rewrite Forall_forall in Ha.
  destruct Hx as [<-|Hx]; destruct Hy as [<-|Hy]; auto.
Qed.

(** Where a live block comes from. *)
Lemma live_origin mb del w base gs s : winv mb del w base gs -> In s (w_live w) ->
  (exists g, In g gs /\ In s (grp_blocks g)) \/
  (exists f, In f (q_prev (w_q w)) /\ s = deletion_source f /\ del = true /\
     q_initFinished (w_q w) = true /\ ~ In (fc_fileName f) (map fst (w_discovered w))).
Proof.
  intros I Hs; rewrite (i_live _ _ _ _ _ I) in Hs; apply in_app_iff in Hs; destruct Hs as [Hs|Hs].
  - left; apply in_concat in Hs; destruct Hs as [bs [Hbs Hs]].
    apply in_map_iff in Hbs; destruct Hbs as [g [<- Hg]]; eauto.
  - right; apply in_map_iff in Hs; destruct Hs as [f [<- Hf]].
    unfold deletions in Hf; destruct del; cbn [andb] in Hf; [|destruct Hf].
    destruct (q_initFinished (w_q w)) eqn:Ei; [|destruct Hf].
    apply filter_In in Hf; destruct Hf as [Hf Hn].
    exists f; repeat split; auto.
    intros Hin; apply negb_true_iff in Hn; unfold has_name in Hn.
    apply in_map_iff in Hin; destruct Hin as [[n z] [Hn' Hin]]; cbn [fst] in Hn'.
    assert (existsb (fun f0 => str_eqb (fst f0) (fc_fileName f)) (w_discovered w) = true); [|congruence].
    apply existsb_exists; exists (n, z); split; [exact Hin|cbn [fst]; apply str_eqb_eq; exact Hn'].
Qed.

(** Every live block either continues the receiver's entry of the same name or
    has an id above all of the receiver's. *)
Lemma live_id mb del w base gs s : winv mb del w base gs -> In s (w_live w) ->
  (exists f, In f (q_prev (w_q w)) /\ s_name s = fc_fileName f /\ s_seqId s = fc_seqId f) \/
  (exists g, In g gs /\ In s (grp_blocks g) /\ fresh (q_prev (w_q w)) (grp_file g) /\
             base <= s_seqId s /\ s_seqId s = grp_id g /\ s_name s = fst (grp_file g)).
Proof.
  intros I Hs; destruct (live_origin _ _ _ _ _ _ I Hs) as [[g [Hg Hb]]|[f [Hf [-> _]]]].
  - destruct (i_groups _ _ _ _ _ I) as [HF _]; rewrite Forall_forall in HF; specialize (HF g Hg).
    cbv beta in HF.
    destruct (g_identity _ _ _ _ _ _ _ HF s Hb) as [Hid [Hr _]].
    destruct (g_name _ _ _ _ _ _ _ HF s Hb) as [Hn _].
    destruct (g_id _ _ _ _ _ _ _ HF) as [[Hno Hlt]|[f [Hres Hidf]]].
    + right; exists g; repeat split; try assumption; lia.
    + left; exists f; destruct Hres as [Hin [Hname _]]; repeat split; congruence.
  - left; exists f; repeat split; auto.
Qed.

Lemma ids_distinct mb del w : qreach mb del w -> prev_ids_distinct (q_prev (w_q w)) ->
  forall s t, In s (w_live w) -> In t (w_live w) -> s_seqId s = s_seqId t -> s_name s = s_name t.
Proof.
  intros Hr Hd s t Hs Ht E; destruct (winv_reach _ _ _ Hr) as [base [gs I]].
  pose proof (i_below _ _ _ _ _ I) as Hbel.
  destruct (live_id _ _ _ _ _ _ I Hs) as [[f [Hf [Hn Hi]]]|[g [Hg [Hgb [Hgf [Hb [Hi Hn]]]]]]];
  destruct (live_id _ _ _ _ _ _ I Ht) as [[f' [Hf' [Hn' Hi']]]|[g' [Hg' [Hgb' [Hgf' [Hb' [Hi' Hn']]]]]]].
  - rewrite Hn, Hn'; apply Hd; congruence.
  - specialize (Hbel f Hf); lia.
  - specialize (Hbel f' Hf'); lia.
  - destruct (i_groups _ _ _ _ _ I) as [_ HO].
    destruct (FOP_in _ _ HO g g' Hg Hg') as [->|[Hlt|Hlt]]; [congruence| |].
    + specialize (Hlt Hgf Hgf'); lia.
    + specialize (Hlt Hgf' Hgf); lia.
Qed.

Lemma ids_no_collision mb del w : qreach mb del w -> prev_ids_distinct (q_prev (w_q w)) ->
  forall s f, In s (w_live w) -> In f (q_prev (w_q w)) -> s_seqId s = fc_seqId f ->
  s_name s = fc_fileName f.
Proof.
  intros Hr Hd s f Hs Hf E; destruct (winv_reach _ _ _ Hr) as [base [gs I]].
  pose proof (i_below _ _ _ _ _ I) as Hbel.
  destruct (live_id _ _ _ _ _ _ I Hs) as [[f' [Hf' [Hn' Hi']]]|[g' [_ [_ [_ [Hb' _]]]]]].
  - rewrite Hn'; apply Hd; congruence.
  - specialize (Hbel f Hf); lia.
Qed.

(** Blocks of one file share one id. *)
Lemma ids_same_file mb del w : qreach mb del w -> NoDup (map fst (w_discovered w)) ->
  forall s t, In s (w_live w) -> In t (w_live w) -> s_name s = s_name t -> s_seqId s = s_seqId t.
Proof.
  intros Hr Hnd s t Hs Ht E; destruct (winv_reach _ _ _ Hr) as [base [gs I]].
  assert (Hgrp : forall u g, In g gs -> In u (grp_blocks g) -> s_name u = fst (grp_file g) /\ s_seqId u = grp_id g).
  { intros u g Hg Hu; destruct (i_groups _ _ _ _ _ I) as [HF _]; rewrite Forall_forall in HF.
    specialize (HF g Hg); cbv beta in HF.
    split; [exact (proj1 (g_name _ _ _ _ _ _ _ HF u Hu))|exact (proj1 (g_identity _ _ _ _ _ _ _ HF u Hu))]. }
  assert (Hdisc : forall g, In g gs -> In (fst (grp_file g)) (map fst (w_discovered w))).
  { intros g Hg; rewrite <- (i_files _ _ _ _ _ I); apply in_map, in_map, Hg. }
  destruct (live_origin _ _ _ _ _ _ I Hs) as [[g [Hg Hb]]|[f [Hf [-> [_ [_ Hnot]]]]]];
  destruct (live_origin _ _ _ _ _ _ I Ht) as [[g' [Hg' Hb']]|[f' [Hf' [-> [_ [_ Hnot']]]]]].
  - destruct (Hgrp s g Hg Hb) as [N1 I1]; destruct (Hgrp t g' Hg' Hb') as [N2 I2].
    assert (g = g'); [|congruence].
    rewrite <- (i_files _ _ _ _ _ I) in Hnd.
    assert (Hinj : forall l : list grp, NoDup (map fst (map grp_file l)) ->
       forall a b, In a l -> In b l -> fst (grp_file a) = fst (grp_file b) -> a = b).
    { clear; induction l as [|c l IH]; intros Hn a b Ha Hb Heq; [destruct Ha|].
      cbn [map] in Hn; inversion Hn as [|? ? Hni Hn']; subst.
      destruct Ha as [<-|Ha]; destruct Hb as [<-|Hb]; auto.
      - exfalso; apply Hni; rewrite Heq; apply in_map, in_map, Hb.
      - exfalso; apply Hni; rewrite <- Heq; apply in_map, in_map, Ha. }
    apply (Hinj gs Hnd); congruence.
  - exfalso; destruct (Hgrp s g Hg Hb) as [N1 _]; apply Hnot'.
    cbn [deletion_source mkSource s_name] in E; rewrite <- E, N1; apply Hdisc, Hg.
  - exfalso; destruct (Hgrp t g' Hg' Hb') as [N1 _]; apply Hnot.
    cbn [deletion_source mkSource s_name] in E; rewrite E, N1; apply Hdisc, Hg'.
  - cbn [deletion_source mkSource s_name s_seqId] in *.
    pose proof (proj2 (find_prev_unique _ _ f (i_nodup _ _ _ _ _ I)) (conj Hf eq_refl)).
    pose proof (proj2 (find_prev_unique _ _ f' (i_nodup _ _ _ _ _ I)) (conj Hf' eq_refl)).
    congruence.
Qed.

(** Coverage over the whole run. *)
Lemma filter_concat {A} (p : A -> bool) l : filter p (concat l) = concat (map (filter p) l).
Proof. induction l as [|x l IH]; cbn [concat map]; [reflexivity|]; rewrite filter_app, IH; reflexivity. Qed.
Lemma filter_all {A} (p : A -> bool) l : (forall x, In x l -> p x = true) -> filter p l = l.
Proof.
  induction l as [|x l IH]; intros H; cbn [filter]; [reflexivity|].
  rewrite (H x (or_introl eq_refl)), IH; [reflexivity|]; intros y Hy; apply H; right; exact Hy.
Qed.
Lemma filter_none {A} (p : A -> bool) l : (forall x, In x l -> p x = false) -> filter p l = [].
Proof.
  induction l as [|x l IH]; intros H; cbn [filter]; [reflexivity|].
  rewrite (H x (or_introl eq_refl)), IH; [reflexivity|]; intros y Hy; apply H; right; exact Hy.
Qed.

Lemma reach_group mb del w name size : qreach mb del w ->
  NoDup (map fst (w_discovered w)) -> In (name, size) (w_discovered w) ->
  exists base id, group_ok (q_prev (w_q w)) mb base (q_next (w_q w)) (name, size) id
                    (blocks_named name (w_live w)).
Proof.
  intros Hr Hnd Hin; destruct (winv_reach _ _ _ Hr) as [base [gs I]].
  exists base.
  rewrite <- (i_files _ _ _ _ _ I) in Hin, Hnd; apply in_map_iff in Hin; destruct Hin as [g [Hgf Hg]].
  exists (grp_id g).
  destruct (i_groups _ _ _ _ _ I) as [HF _].
  assert (E : blocks_named name (w_live w) = grp_blocks g).
  { unfold blocks_named; rewrite (i_live _ _ _ _ _ I), filter_app.
    set (p := fun s => if list_eq_dec Z.eq_dec (s_name s) name then true else false).
    assert (Hd : filter p (map deletion_source
        (deletions del (q_initFinished (w_q w)) (q_prev (w_q w)) (w_discovered w))) = []).
    { apply filter_none; intros s Hs; unfold p; destruct (list_eq_dec Z.eq_dec (s_name s) name) as [En|]; [|reflexivity].
      exfalso; assert (Hl : In s (w_live w)) by (rewrite (i_live _ _ _ _ _ I); apply in_app_iff; right; exact Hs).
      apply in_map_iff in Hs; destruct Hs as [f [<- Hf]]; cbn [deletion_source mkSource s_name] in En.
      unfold deletions in Hf; destruct (del && q_initFinished (w_q w)); [|destruct Hf].
      apply filter_In in Hf; destruct Hf as [_ Hf]; apply negb_true_iff in Hf; unfold has_name in Hf.
      assert (existsb (fun f0 => str_eqb (fst f0) (fc_fileName f)) (w_discovered w) = true); [|congruence].
      apply existsb_exists; exists (name, size); split.
      - rewrite <- (i_files _ _ _ _ _ I), <- Hgf; apply in_map, Hg.
      - cbn [fst]; apply str_eqb_eq; congruence. }
    rewrite Hd, app_nil_r, filter_concat.
    rewrite Forall_forall in HF.
    assert (Hname : forall h, In h gs -> forall s, In s (grp_blocks h) -> s_name s = fst (grp_file h)).
    { intros h Hh s Hs; specialize (HF h Hh); cbv beta in HF; exact (proj1 (g_name _ _ _ _ _ _ _ HF s Hs)). }
    clear -Hg Hgf Hnd Hname.
    induction gs as [|h gs IH]; [destruct Hg|].
    cbn [map concat]; cbn [map] in Hnd; inversion Hnd as [|? ? Hni Hnd']; subst.
    destruct Hg as [->|Hg].
    - rewrite filter_all.
      + rewrite <- (app_nil_r (grp_blocks g)) at 2; f_equal.
        rewrite map_map.
        assert (Hz : forall l, (forall h, In h l -> In h gs) -> concat (map (fun x => filter p (grp_blocks x)) l) = []).
        { induction l as [|h l IHl]; intros Hl; [reflexivity|]; cbn [map concat].
          rewrite IHl by (intros k Hk; apply Hl; right; exact Hk); rewrite app_nil_r.
          apply filter_none; intros s Hs; unfold p.
          destruct (list_eq_dec Z.eq_dec (s_name s) name) as [En|]; [exfalso|reflexivity].
          rewrite (Hname h (or_intror (Hl h (or_introl eq_refl))) s Hs) in En.
          apply Hni; rewrite Hgf; cbn [fst]; rewrite <- En; apply in_map, in_map, Hl; left; reflexivity. }
        apply Hz; auto.
      + intros s Hs; unfold p; destruct (list_eq_dec Z.eq_dec (s_name s) name) as [|En]; [reflexivity|exfalso].
        apply En; rewrite (Hname g (or_introl eq_refl) s Hs), Hgf; reflexivity.
    - rewrite filter_none.
      + cbn [app]; apply IH; [exact Hnd'|exact Hg|]; intros k Hk; apply Hname; right; exact Hk.
      + intros s Hs; unfold p; destruct (list_eq_dec Z.eq_dec (s_name s) name) as [En|]; [exfalso|reflexivity].
        rewrite (Hname h (or_introl eq_refl) s Hs) in En; apply Hni.
        rewrite En; replace name with (fst (grp_file g)) by (rewrite Hgf; reflexivity).
        apply in_map, in_map, Hg. }
  rewrite E; rewrite Forall_forall in HF; specialize (HF g Hg); cbv beta in HF; rewrite Hgf in HF; exact HF.
Qed.

Lemma reach_exact mb del w name size : qreach mb del w ->
  NoDup (map fst (w_discovered w)) -> In (name, size) (w_discovered w) ->
  pieces_fit (q_prev (w_q w)) name size ->
  exact_blocks (q_prev (w_q w)) mb name size (blocks_named name (w_live w)).
Proof.
  intros Hr Hnd Hin Hfit; destruct (reach_group _ _ _ _ _ Hr Hnd Hin) as [base [id Hg]].
  exact (proj1 (g_exact _ _ _ _ _ _ _ Hg Hfit)).
Qed.

Lemma reach_identity mb del w name size : qreach mb del w ->
  NoDup (map fst (w_discovered w)) -> In (name, size) (w_discovered w) ->
  exists id, forall s, In s (blocks_named name (w_live w)) ->
    identity_ok (q_prev (w_q w)) name size id s /\ ~ is_deletion s.
Proof.
  intros Hr Hnd Hin; destruct (reach_group _ _ _ _ _ Hr Hnd Hin) as [base [id Hg]].
  exists id; intros s Hs; split; [exact (g_identity _ _ _ _ _ _ _ Hg s Hs)|exact (g_nodel _ _ _ _ _ _ _ Hg s Hs)].
Qed.

Lemma reach_resume mb del w name size f : qreach mb del w ->
  NoDup (map fst (w_discovered w)) -> In (name, size) (w_discovered w) ->
  pieces_fit (q_prev (w_q w)) name size -> resumes (q_prev (w_q w)) name size f ->
  getTotalChunkSize (fc_chunks f) + total_size (blocks_named name (w_live w)) = size /\
  (forall x, covered (fc_chunks f) x -> times_covered (blocks_named name (w_live w)) x = 0%nat).
Proof.
  intros Hr Hnd Hin Hfit Hres; destruct (reach_group _ _ _ _ _ Hr Hnd Hin) as [base [id Hg]].
  destruct (g_exact _ _ _ _ _ _ _ Hg Hfit) as [[_ [H0 _]] [_ Ht]].
  split; [exact (Ht f Hres)|]; intros x Hx; apply H0; right; right; exists f; auto.
Qed.

(** Deletions. *)
Lemma deletion_only_extra mb del w : qreach mb del w ->
  forall s, In s (w_live w) -> is_deletion s ->
  del = true /\ q_initFinished (w_q w) = true /\
  ~ In (s_name s) (map fst (w_discovered w)) /\
  exists f, In f (q_prev (w_q w)) /\ s_name s = fc_fileName f /\ s_seqId s = fc_seqId f /\
            s_size s = 0 /\ s_offset s = 0.
Proof.
  intros Hr s Hs Hd; destruct (winv_reach _ _ _ Hr) as [base [gs I]].
  destruct (live_origin _ _ _ _ _ _ I Hs) as [[g [Hg Hb]]|[f [Hf [-> [-> [Hi Hn]]]]]].
  - exfalso; destruct (i_groups _ _ _ _ _ I) as [HF _]; rewrite Forall_forall in HF.
    specialize (HF g Hg); cbv beta in HF; exact (g_nodel _ _ _ _ _ _ _ HF s Hb Hd).
  - repeat split; auto; exists f; repeat split; auto.
Qed.

Lemma deletion_all_extra mb w : qreach mb true w -> q_initFinished (w_q w) = true ->
  (forall f, In f (q_prev (w_q w)) -> ~ In (fc_fileName f) (map fst (w_discovered w)) ->
     exists s, In s (w_live w) /\ is_deletion s /\ s_name s = fc_fileName f /\ s_seqId s = fc_seqId f) /\
  NoDup (map s_name (filter (fun s => s_alloc s =? TO_BE_DELETED) (w_live w))).
Proof.
  intros Hr Hi; destruct (winv_reach _ _ _ Hr) as [base [gs I]]; split.
  - intros f Hf Hn; exists (deletion_source f); split; [|repeat split].
    rewrite (i_live _ _ _ _ _ I); apply in_app_iff; right; apply in_map.
    unfold deletions; rewrite Hi; cbn [andb]; apply filter_In; split; [exact Hf|].
    apply negb_true_iff; destruct (has_name (fc_fileName f) (w_discovered w)) eqn:E; [exfalso|reflexivity].
    unfold has_name in E; apply existsb_exists in E; destruct E as [[n z] [Hin E]]; cbn [fst] in E.
    apply str_eqb_eq in E; subst n; apply Hn; apply in_map_iff; exists (fc_fileName f, z); auto.
  - rewrite (i_live _ _ _ _ _ I), filter_app.
    rewrite (filter_none _ (concat (map grp_blocks gs))).
    2:{ intros s Hs; apply in_concat in Hs; destruct Hs as [bs [Hbs Hs]].
        apply in_map_iff in Hbs; destruct Hbs as [g [<- Hg]].
        destruct (i_groups _ _ _ _ _ I) as [HF _]; rewrite Forall_forall in HF.
        specialize (HF g Hg); cbv beta in HF; apply Z.eqb_neq; exact (g_nodel _ _ _ _ _ _ _ HF s Hs). }
    rewrite filter_all by (intros s Hs; apply in_map_iff in Hs; destruct Hs as [f [<- _]]; reflexivity).
    cbn [app]; rewrite map_map; cbn [deletion_source mkSource s_name].
    unfold deletions; rewrite Hi; cbn [andb].
    pose proof (i_nodup _ _ _ _ _ I) as Hnd; clear -Hnd.
    induction (q_prev (w_q w)) as [|f l IH]; cbn [filter map]; [constructor|].
    cbn [map] in Hnd; inversion Hnd as [|? ? Hni Hnd']; subst.
    destruct (negb (has_name (fc_fileName f) (w_discovered w))); [|exact (IH Hnd')].
    cbn [map]; constructor; [|exact (IH Hnd')].
    intros Hin; apply Hni; apply in_map_iff in Hin; destruct Hin as [g [Hg Hin]].
    apply filter_In in Hin; rewrite <- Hg; apply in_map; exact (proj1 Hin).
Qed.

(** The receiver's list as kept by the queue. *)
Lemma set_prev_list q l q' : q_prev q = [] ->
  setPreviouslyReceivedChunks q l = Ret (Some q') -> Forall (fun f => 0 <= snd f) (q_files q) ->
  (forall name, In name (map fc_fileName (q_prev q')) <-> In name (map fc_fileName l)) /\
  (forall f, In f (q_prev q') -> In f l) /\ NoDup (map fc_fileName (q_prev q')).
Proof.
  intros Hp E Hs; unfold setPreviouslyReceivedChunks in E.
  destruct (negb (q_deq q =? 0)); [discriminate|].
  match type of E with obind (create_all ?x _) _ = _ => set (q0 := x) in * end.
  destruct (create_all q0 (q_files q0)) as [[q1|]| |] eqn:Ec; cbn [obind] in E; try discriminate.
  injection E as <-.
  assert (Hnd0 : NoDup (map fc_fileName (q_prev q0))).
  { unfold q0; cbn [q_prev]; apply insert_all_nodup; rewrite Hp; constructor. }
  destruct (create_all_groups (q_files q0) q0 q1 (q_next q0) [] Hnd0 Hs (Z.le_refl _)
              (conj (Forall_nil _) (FOP_nil _)) eq_refl eq_refl Ec) as [hs [_ [Hu _]]].
  pose proof (enqueue_del_spec q1) as D; cbv zeta in D; destruct D as [_ [_ [_ [_ [_ [D6 _]]]]]].
  rewrite D6, (u_prev _ _ Hu); split; [|split; [|exact Hnd0]].
  - intros name; unfold q0; cbn [q_prev]; rewrite insert_all_name, Hp; cbn [map In]; tauto.
  - intros f; unfold q0; cbn [q_prev]; intros Hf; apply insert_all_in in Hf; rewrite Hp in Hf.
    destruct Hf as [Hf|[]]; exact Hf.
Qed.

Lemma conservation mb del w : qreach mb del w ->
  Permutation (w_created w ++ w_returned w)
              (q_queue (w_q w) ++ w_handed w ++ w_unopened w ++ w_discarded w) /\
  q_deq (w_q w) = zlen (w_handed w) - zlen (w_returned w) /\ 0 <= q_deq (w_q w).
Proof.
  intros Hr; destruct (winv_reach _ _ _ Hr) as [base [gs I]].
  split; [exact (i_perm _ _ _ _ _ I)|split; [exact (i_deq _ _ _ _ _ I)|exact (i_deq0 _ _ _ _ _ I)]].
Qed.

Lemma blocks_counted mb del w : qreach mb del w -> q_blocks (w_q w) = zlen (w_live w).
Proof. intros Hr; destruct (winv_reach _ _ _ Hr) as [base [gs I]]; exact (i_blocks _ _ _ _ _ I). Qed.

Lemma snoc_neq {A} (l : list A) x : l <> l ++ [x].
Proof.
  intros E; assert (length l = length (l ++ [x])) as El by (rewrite <- E; reflexivity).
  rewrite app_length in El; cbn in El; lia.
Qed.

Lemma handout_highest w w' s : qstep w w' -> w_handed w' = w_handed w ++ [s] ->
  Permutation (q_queue (w_q w)) (s :: q_queue (w_q w')) /\
  forall t, In t (q_queue (w_q w)) -> ~ before t s.
Proof.
  intros St E; destruct St; cbn [w_handed] in E; try (exfalso; exact (snoc_neq _ _ E)).
  apply app_inv_head in E; injection E as ->.
  destruct (pops_spec _ _ _ H) as [Hp Hm]; cbn [w_q set_queue q_queue]; split; [exact Hp|].
  intros t Ht; pose proof (Permutation_in _ Hp Ht) as [<-|Ht']; [apply before_irrefl|exact (Hm t Ht')].
Qed.

(** A resumed transfer with an empty list numbers its first file 0. *)
Lemma zero_id_witness : exists w s,
  qreach 16 false w /\ In s (w_live w) /\ s_seqId s = 0.
Proof.
  do 2 eexists; split; [|split].
  - eapply QRS; [eapply QRS; [apply QR0|]|].
    + eapply (QSetPrev _ []); [reflexivity|]; vm_compute; reflexivity.
    + eapply (QDiscover _ ([97], 5)); [reflexivity|cbn; lia|]; vm_compute; reflexivity.
  - cbn; left; reflexivity.
  - reflexivity.
Qed.

(** Running the steps, for examples. *)
Inductive qcmd :=
| CmdDiscover (file : list Z * Z)
| CmdInitFinished
| CmdSetPrev (l : list file_chunks)
| CmdHand
| CmdOpenFail
| CmdReturn (l : list source).

Definition qexec (w : qworld) (c : qcmd) : option qworld :=
  match c with
  | CmdDiscover file =>
      if q_initFinished (w_q w) then None else if snd file <? 0 then None else
      match createIntoQueue (w_q w) file with
      | Ret (Some q') =>
          Some {| w_q := q'; w_prevSet := w_prevSet w;
               w_created := w_created w ++ appended (q_queue (w_q w)) (q_queue q');
               w_live := w_live w ++ appended (q_queue (w_q w)) (q_queue q');
               w_discarded := w_discarded w; w_handed := w_handed w;
               w_unopened := w_unopened w; w_returned := w_returned w;
               w_discovered := w_discovered w ++ [file] |}
      | _ => None
      end
  | CmdInitFinished =>
      if q_initFinished (w_q w) then None else
      Some {| w_q := finishInit (w_q w); w_prevSet := w_prevSet w;
               w_created := w_created w ++ appended (q_queue (w_q w)) (q_queue (finishInit (w_q w)));
               w_live := w_live w ++ appended (q_queue (w_q w)) (q_queue (finishInit (w_q w)));
               w_discarded := w_discarded w; w_handed := w_handed w;
               w_unopened := w_unopened w; w_returned := w_returned w;
               w_discovered := w_discovered w |}
  | CmdSetPrev l =>
      if w_prevSet w then None else
      match setPreviouslyReceivedChunks (w_q w) l with
      | Ret (Some q') =>
          Some {| w_q := q'; w_prevSet := true;
               w_created := w_created w ++ q_queue q';
               w_live := q_queue q';
               w_discarded := w_discarded w ++ q_queue (w_q w); w_handed := w_handed w;
               w_unopened := w_unopened w; w_returned := w_returned w;
               w_discovered := w_discovered w |}
      | _ => None
      end
  | CmdHand =>
      match pop_top (q_queue (w_q w)) with
      | Some (s, rest) =>
          Some {| w_q := set_queue (w_q w) rest (q_deq (w_q w) + 1); w_prevSet := w_prevSet w;
               w_created := w_created w; w_live := w_live w; w_discarded := w_discarded w;
               w_handed := w_handed w ++ [s];
               w_unopened := w_unopened w; w_returned := w_returned w;
               w_discovered := w_discovered w |}
      | None => None
      end
  | CmdOpenFail =>
      match pop_top (q_queue (w_q w)) with
      | Some (s, rest) =>
          Some {| w_q := set_queue (w_q w) rest (q_deq (w_q w)); w_prevSet := w_prevSet w;
               w_created := w_created w; w_live := w_live w; w_discarded := w_discarded w;
               w_handed := w_handed w;
               w_unopened := w_unopened w ++ [s]; w_returned := w_returned w;
               w_discovered := w_discovered w |}
      | None => None
      end
  | CmdReturn l =>
      match returnToQueue (w_q w) l with
      | Ret q' =>
          Some {| w_q := q'; w_prevSet := w_prevSet w;
               w_created := w_created w; w_live := w_live w; w_discarded := w_discarded w;
               w_handed := w_handed w;
               w_unopened := w_unopened w; w_returned := w_returned w ++ l;
               w_discovered := w_discovered w |}
      | _ => None
      end
  end.

Lemma qexec_step w c w' : qexec w c = Some w' -> qstep w w'.
Proof.
  destruct c; cbn [qexec]; intros E.
  - destruct (q_initFinished (w_q w)) eqn:Ei; [discriminate|].
    destruct (Z.ltb_spec (snd file) 0); [discriminate|].
    destruct (createIntoQueue (w_q w) file) as [[q'|]| |] eqn:Ec; try discriminate.
    injection E as <-; apply QDiscover; assumption.
  - destruct (q_initFinished (w_q w)) eqn:Ei; [discriminate|].
    injection E as <-; apply QInitFinished; assumption.
  - destruct (w_prevSet w) eqn:Ei; [discriminate|].
    destruct (setPreviouslyReceivedChunks (w_q w) l) as [[q'|]| |] eqn:Ec; try discriminate.
    injection E as <-; eapply QSetPrev; eassumption.
  - destruct (pop_top (q_queue (w_q w))) as [[s rest]|] eqn:Ep; [|discriminate].
    injection E as <-; apply QHand, pop_top_pops, Ep.
  - destruct (pop_top (q_queue (w_q w))) as [[s rest]|] eqn:Ep; [|discriminate].
    injection E as <-; apply QOpenFail, pop_top_pops, Ep.
  - destruct (returnToQueue (w_q w) l) as [q'| |] eqn:Er; try discriminate.
    injection E as <-; apply QReturn; exact Er.
Qed.

Fixpoint qrun (w : qworld) (cs : list qcmd) : option qworld :=
  match cs with
  | [] => Some w
  | c :: r => match qexec w c with Some w' => qrun w' r | None => None end
  end.

Lemma qrun_reach mb del cs : forall w w', qreach mb del w -> qrun w cs = Some w' -> qreach mb del w'.
Proof.
  induction cs as [|c cs IH]; intros w w' Hr E; cbn [qrun] in E; [congruence|].
  destruct (qexec w c) as [w1|] eqn:Ex; [|discriminate].
  apply (IH w1); [|exact E]; eapply QRS; [exact Hr|exact (qexec_step _ _ _ Ex)].
Qed.
