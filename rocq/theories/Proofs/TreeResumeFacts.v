(** C58: sessions and deaths with resumption based on the directory tree. *)
From Verif Require Export Proofs.TreeInv Proofs.TreeTraverse.
From Verif Require Import Proofs.LogParseFacts Proofs.LogRecoverFacts Proofs.LogFacts Proofs.CrashFacts.
From Coq Require Import Lia.
Open Scope Z_scope.
Local Opaque Z.pow.

(** ---- what the log says ---- *)
Definition tree_entry (e : log_entry) : Prop :=
  entry_ok e /\
  match e with LHeader _ v _ ip _ => v = 2 /\ ip <> [] | LDirInval _ => True | _ => False end.
Fixpoint tstat (o : popts) (es : list log_entry) (st : Z) : Z :=
  match es with
  | [] => st
  | e :: r =>
      tstat o r (match e with
                 | LHeader _ _ rid _ cfg => if matchb o rid cfg then OK else INCONSISTENT_DIRECTORY
                 | LDirInval _ => INCONSISTENT_DIRECTORY
                 | _ => st
                 end)
  end.
Definition dead (es : list log_entry) : Prop := forall o st, tstat o es st = INCONSISTENT_DIRECTORY.

Lemma tstat_app o a b : forall st, tstat o (a ++ b) st = tstat o b (tstat o a st).
Proof. induction a as [|e a IH]; intros st; cbn; [reflexivity|apply IH]. Qed.
Lemma dead_snoc es ts : dead (es ++ [LDirInval ts]).
Proof. intros o st. rewrite tstat_app. reflexivity. Qed.
Lemma tree_ok es : Forall tree_entry es -> Forall entry_ok es.
Proof. intros H. eapply Forall_impl; [|exact H]. intros e [A _]; exact A. Qed.
Lemma zlen_pos (ip : list Z) : ip <> [] -> (zlen ip =? 0) = false.
Proof.
  intros H. apply Z.eqb_neq. destruct ip as [|a ip]; [congruence|].
  rewrite zlen_cons. pose proof (zlen_nonneg ip). lia.
Qed.

Lemma run_tree_log o es : po_parseOnly o = false -> Forall tree_entry es -> forall st s,
  p_files s = [] -> p_invalid s = [] -> st = OK \/ st = INCONSISTENT_DIRECTORY ->
  exists s', run o (bodies es) st s = Ret (inl (tstat o es st, s')) /\ p_files s' = [] /\ p_invalid s' = [].
Proof.
  intros Hp. induction es as [|e es IH]; intros H st s F V St; cbn [bodies map run].
  - exists s; auto.
  - inversion H as [|? ? [He Hk] H']; subst. rewrite parse_body by assumption.
    destruct e as [ts v rid ip cfg| | | | |ts]; try contradiction; cbn [estep tstat].
    + destruct Hk as [-> Hip]. rewrite (zlen_pos ip Hip). cbn [Z.eqb Pos.eqb negb orb].
      destruct (matchb o rid cfg); cbn [obind].
      * change (OK =? INVALID_LOG) with false; cbv iota. apply IH; auto.
      * change (INCONSISTENT_DIRECTORY =? INVALID_LOG) with false; cbv iota. apply IH; auto.
    + destruct St as [-> | ->].
      * change (OK =? INCONSISTENT_DIRECTORY) with false; cbv iota; cbn [obind].
        change (INCONSISTENT_DIRECTORY =? INVALID_LOG) with false; cbv iota. apply IH; auto.
      * change (INCONSISTENT_DIRECTORY =? INCONSISTENT_DIRECTORY) with true; cbv iota; cbn [obind].
        change (INCONSISTENT_DIRECTORY =? INVALID_LOG) with false; cbv iota. apply IH; auto.
Qed.
Lemma parse_tree_log now o es ip : po_parseOnly o = false -> Forall tree_entry es ->
  exists ip', parseLog now o (file_of (log_bytes es)) ip =
    Ret {| pr_status := tstat o es OK; pr_infos := []; pr_ip := ip';
           pr_file := {| lf_data := log_bytes es; lf_pos := zlen (log_bytes es) |} |}.
Proof.
  intros Hp H. pose proof (parse_torn now o (bodies es) [] ip (bodies_ok es (tree_ok es H)) torn_nil) as P.
  cbv zeta in P. rewrite app_nil_r, <- log_frames, Hp in P.
  destruct (run_tree_log o es Hp H OK (p_init ip) eq_refl eq_refl (or_introl eq_refl)) as (s' & R & F & V).
  rewrite R in P. rewrite F, V in P. cbn [map writeFileInvalidationEntries obind] in P.
  exists (p_ip s'). rewrite P. destruct (Z.eqb_spec (tstat o es OK) OK) as [->|]; reflexivity.
Qed.
Lemma tstat_cases o es : tstat o es OK = OK \/ tstat o es OK = INCONSISTENT_DIRECTORY.
Proof.
  assert (G : forall st, st = OK \/ st = INCONSISTENT_DIRECTORY ->
            tstat o es st = OK \/ tstat o es st = INCONSISTENT_DIRECTORY).
  { induction es as [|e es IH]; intros st St; cbn [tstat]; [exact St|]. apply IH.
    destruct e; auto. destruct (matchb o rid config); auto. }
  apply G; auto.
Qed.

(** ---- the manager of a session ---- *)
Record mgr (rid : list Z) (m : tlm) (es : list log_entry) : Prop := {
  mg_open : tm_open m = true;
  mg_rid : tm_rid m = rid;
  mg_config : tm_config m = 2;
  mg_entries : tm_entries m = [];
  mg_holds : holds (tm_file m) es;
  mg_log : Forall tree_entry es
}.
Lemma mgr_inval rid m es ts m' : mgr rid m es -> in_nat63 ts -> invalidateDirectory ts m = Ret m' ->
  mgr rid m' (es ++ [LDirInval ts]) /\ tm_status m' = INCONSISTENT_DIRECTORY /\ tm_ip m' = tm_ip m.
Proof.
  intros [H1 H2 H3 H4 H5 H6] Ht E.
  destruct (write_dir_inval ts m es Ht H1 H5) as (m2 & E2 & Hh & Hs & Ho).
  rewrite E in E2; injection E2 as <-.
  assert (K : tm_rid m' = tm_rid m /\ tm_ip m' = tm_ip m /\ tm_config m' = tm_config m /\ tm_entries m' = tm_entries m).
  { unfold invalidateDirectory in E; rewrite H1 in E; cbn [negb] in E.
    destruct (encodeDirectoryInvalidationEntry ts entry_buf kMaxEntryLength); try discriminate E.
    cbn [obind] in E; injection E as <-; auto. }
  destruct K as (K1 & K2 & K3 & K4). split; [|auto].
  constructor; [exact Ho|congruence|congruence|congruence|exact Hh|].
  apply Forall_app; split; [exact H6|]. constructor; [|constructor].
  split; [|exact I]. split; [exact Ht|apply entry_fits; [exact Ht|exact I]].
Qed.
Lemma mgr_header rid m es ts m' : mgr rid m es -> in_nat63 ts -> tm_ip m <> [] ->
  zlen rid + zlen (tm_ip m) <= 4103 -> writeLogHeader ts m = Ret m' ->
  exists es', mgr rid m' es' /\ tm_status m' = OK /\ tm_ip m' = tm_ip m /\ es' <> [].
Proof.
  intros [H1 H2 H3 H4 H5 H6] Ht Hip Hl E.
  assert (C2 : in_nat63 2) by (split; [lia|vm_compute; reflexivity]).
  pose proof (write_header ts m es m' Ht ltac:(rewrite H3; exact C2) ltac:(rewrite H2; exact Hl) H1 H4 H5 E)
    as (Ho & _ & fl & un & Enil & Hh & Eu).
  symmetry in Enil. apply app_eq_nil in Enil. destruct Enil as [-> ->]. rewrite app_nil_r in Hh.
  assert (K : tm_rid m' = tm_rid m /\ tm_ip m' = tm_ip m /\ tm_config m' = tm_config m /\ tm_status m' = OK).
  { unfold writeLogHeader in E; rewrite H1 in E; cbn [negb] in E.
    destruct (encodeLogHeader ts entry_buf kMaxEntryLength (tm_rid m) (tm_ip m) (tm_config m)); try discriminate E.
    cbn [obind] in E; injection E as <-; auto. }
  destruct K as (K1 & K2 & K3 & K4).
  exists (es ++ [header (tm_rid m) (tm_ip m) (tm_config m) ts]). split; [|split; [exact K4|split; [exact K2|]]].
  - constructor; [exact Ho|congruence|congruence|exact Eu|exact Hh|].
    apply Forall_app; split; [exact H6|]. constructor; [|constructor].
    split; [apply header_ok; [exact Ht|rewrite H3; exact C2|rewrite H2; exact Hl]|].
    cbn. auto.
  - destruct es; discriminate.
Qed.

Definition durable_tree (c : ccfg) (d : disk) (log : list Z) : Prop :=
  exists es, log = log_bytes es /\ Forall tree_entry es /\
    forall o, tstat o es OK = OK -> all_right c d.

Lemma init_tree c now ts rid fuel root E d log infos m : durable_tree c d log -> in_nat63 ts ->
  tree_init now ts (c_prealloc c) rid fuel root E log = Ret (Some (infos, m)) ->
  c_prealloc c = false /\
  exists es, mgr rid m es /\
    ((tm_status m = OK /\ all_right c d /\ traverseDestinationDir fuel root E = Ret (Some infos)) \/
     (tm_status m = INCONSISTENT_DIRECTORY /\ infos = [] /\ dead es)).
Proof.
  intros (es & -> & Hes & Hr) Ht. unfold tree_init. destruct (c_prealloc c); [discriminate|].
  intros X. split; [reflexivity|].
  unfold parseVerifyAndFix in X. cbn [tm_open negb tm_file tm_ip] in X.
  destruct (parse_tree_log now (tree_popts rid) es [] eq_refl Hes) as (ip' & P).
  unfold file_of in P. rewrite P in X. cbn [obind pr_status pr_infos pr_file pr_ip] in X.
  cbn [tm_open tm_rid tm_config tm_entries tm_headerWritten] in X.
  destruct (tstat_cases (tree_popts rid) es) as [St|St]; rewrite St in X.
  - change (OK =? INVALID_LOG) with false in X. change (OK =? INCONSISTENT_DIRECTORY) with false in X.
    change (OK =? OK) with true in X. cbn [andb obind] in X.
    destruct (traverseDestinationDir fuel root E) as [[l|]| |] eqn:T; cbn [obind] in X; try discriminate X.
    injection X as <- <-. exists es. split; [|left; split; [reflexivity|split; [exact (Hr _ St)|reflexivity]]].
    constructor; try reflexivity; [|exact Hes]. split; reflexivity.
  - change (INCONSISTENT_DIRECTORY =? INVALID_LOG) with false in X.
    change (INCONSISTENT_DIRECTORY =? INCONSISTENT_DIRECTORY) with true in X.
    cbn [andb negb po_parseOnly tree_popts] in X.
    match type of X with context [invalidateDirectory ts ?mm] =>
      assert (M : mgr rid mm es); [|destruct (invalidateDirectory ts mm) as [m2| |] eqn:V;
        cbn [obind] in X; try discriminate X; destruct (mgr_inval rid mm es ts m2 M Ht V) as (M2 & S2 & _)] end.
    { constructor; try reflexivity; [|exact Hes]. split; reflexivity. }
    rewrite S2 in X. change (INCONSISTENT_DIRECTORY =? OK) with false in X. injection X as <- <-.
    exists (es ++ [LDirInval ts]). split; [exact M2|right]. split; [exact S2|]. split; [reflexivity|].
    apply dead_snoc.
Qed.

Lemma begin_tree rid ts dis peer infos m es infos' m' : mgr rid m es -> in_nat63 ts ->
  tree_begin ts dis peer infos m = Ret (infos', m') ->
  tm_ip m' = peer /\
  ((infos' = infos /\ mgr rid m' es /\ tm_status m' = tm_status m) \/
   (infos' = [] /\ tm_status m' = INCONSISTENT_DIRECTORY /\ exists es', mgr rid m' es' /\ dead es')).
Proof.
  intros M Ht. unfold tree_begin, verifySenderIp. rewrite (mg_open _ _ _ M). cbn [negb].
  destruct (dis || (zlen (tm_ip m) =? 0) || str_eqb (tm_ip m) peer).
  - cbn [obind fst snd]. intros X; injection X as <- <-. split; [reflexivity|left].
    split; [reflexivity|]. split; [|reflexivity]. destruct M as [H1 H2 H3 H4 H5 H6]. constructor; [reflexivity|assumption..].
  - destruct (invalidateDirectory ts m) as [m1| |] eqn:V; cbn [obind fst snd]; try discriminate.
    intros X; injection X as <- <-. destruct (mgr_inval rid m es ts m1 M Ht V) as (M1 & S1 & _).
    split; [reflexivity|right]. split; [reflexivity|]. split; [exact S1|].
    exists (es ++ [LDirInval ts]). split; [|apply dead_snoc].
    destruct M1 as [H1 H2 H3 H4 H5 H6]. constructor; assumption.
Qed.

(** ---- a session ---- *)
Definition sinv (c : ccfg) (p : fplans) (infos : list file_chunks) (rid : list Z)
    (told : list (list Z * Z)) (s : tses) : Prop :=
  exists es, mgr rid (cs_log (te_c s)) es /\ tm_ip (cs_log (te_c s)) <> [] /\
    zlen rid + zlen (tm_ip (cs_log (te_c s))) <= 4103 /\
    ((tm_status (cs_log (te_c s)) = OK /\ tinv c p infos told (te_c s)) \/
     (tm_status (cs_log (te_c s)) = INCONSISTENT_DIRECTORY /\ dead es)).

Lemma tinv_log c p infos told s m : tinv c p infos told s -> tinv c p infos told (set_log s m).
Proof. intros [A B C D E]. constructor; assumption. Qed.

Lemma tree_step_log c l s s' : tm_entries (cs_log s) = [] -> lf_pos (tm_file (cs_log s)) = zlen (lf_data (tm_file (cs_log s))) ->
  tree_step c l s = Some s' -> cs_log s' = cs_log s.
Proof.
  intros He Hpos E.
  destruct l; cbn [tree_step cstep] in E;
    try (match type of E with match nth_error ?l ?i with _ => _ end = _ => destruct (nth_error l i) as [t|]; [|discriminate E] end).
  - destruct (ct_op t); try discriminate E. injection E as <-; reflexivity.
  - destruct (ct_op t); try discriminate E. unfold c_open in E.
    destruct (bd_alloc b =? TO_BE_DELETED); [injection E as <-; destruct (c_delete c); reflexivity|].
    destruct (cs_map s (bd_seqId b)) as [[ | | ]|]; try discriminate E.
    + destruct (cs_disk s (bd_fileName b)); injection E as <-; reflexivity.
    + injection E as <-; reflexivity.
    + destruct (bd_alloc b =? EXISTS_CORRECT_SIZE).
      { cbn [cs_disk set_map] in E. destruct (cs_disk s (bd_fileName b)); injection E as <-; reflexivity. }
      destruct (bd_alloc b =? NOT_EXISTS); [injection E as <-; reflexivity|].
      destruct (cs_disk s (bd_fileName b)); injection E as <-; reflexivity.
  - destruct (ct_op t); try discriminate E. injection E as <-; reflexivity.
  - destruct (ct_op t); try discriminate E. injection E as <-; reflexivity.
  - destruct (ct_op t); try discriminate E. injection E as <-; reflexivity.
  - destruct (ct_op t); try discriminate E. injection E as <-; reflexivity.
  - destruct (ct_op t); try discriminate E. destruct (_ <=? _); [|discriminate E]. injection E as <-; reflexivity.
  - destruct (ct_op t); try discriminate E. destruct (_ =? _); [|discriminate E]. injection E as <-; reflexivity.
  - destruct (ct_wait t) as [|[b ok] r]; [discriminate E|]. destruct (_ || _); [|discriminate E].
    injection E as <-; reflexivity.
  - injection E as <-; reflexivity.
  - destruct (ct_op t); injection E as <-; reflexivity.
  - injection E as <-. cbn [set_log cs_log]. unfold writeEntries. rewrite He. cbn [concat].
    destruct (cs_log s) as [o [fd fp] r ip cf en st hw]; cbn in *. subst en fp.
    unfold tm_with_entries, tm_with_file; cbn. rewrite fwrite_end, app_nil_r. reflexivity.
Qed.

Lemma step_sinv c p infos rid told s e s' block resuming : c_prealloc c = false -> tree_plan p infos ->
  sinv c p infos rid told s ->
  (forall ts ts', e = TvHeader ts ts' -> in_nat63 ts /\ in_nat63 ts') ->
  (forall l, e = TvStep l -> tm_status (cs_log (te_c s)) = OK -> tree_careful c p infos told l (te_c s)) ->
  tses_step c block resuming s e = Some s' ->
  sinv c p infos rid (match e with TvStep l => told_after l (te_c s) told | _ => told end) s'.
Proof.
  intros Hpre Hp (es & M & Hip & Hl & St) Hts Hc E.
  assert (Same : forall ph, sinv c p infos rid told {| te_c := te_c s; te_phase := ph |}).
  { intros ph. exists es. auto. }
  assert (Header : forall ts ts' m, in_nat63 ts -> in_nat63 ts' ->
    addTransferLogHeader ts ts' true block resuming (cs_log (te_c s)) = Ret m ->
    sinv c p infos rid told {| te_c := set_log (te_c s) m; te_phase := TpEnd |}).
  { intros ts ts' m Ht Ht' A. unfold addTransferLogHeader in A. cbn [negb orb andb] in A.
    destruct (negb resuming || block).
    - destruct (invalidateDirectory ts (cs_log (te_c s))) as [m1| |] eqn:V; cbn [obind] in A; try discriminate A.
      destruct (mgr_inval rid _ es ts m1 M Ht V) as (M1 & S1 & I1). rewrite S1 in A.
      change (INCONSISTENT_DIRECTORY =? INCONSISTENT_DIRECTORY) with true in A. cbn [negb] in A.
      injection A as <-. exists (es ++ [LDirInval ts]). cbn [te_c set_log cs_log].
      split; [exact M1|]. rewrite I1. split; [exact Hip|]. split; [exact Hl|right].
      split; [exact S1|apply dead_snoc].
    - cbn [obind] in A. destruct St as [[S T]|[S D]]; rewrite S in A.
      + change (OK =? INCONSISTENT_DIRECTORY) with false in A. cbn [negb] in A.
        destruct (mgr_header rid _ es ts' m M Ht' Hip Hl A) as (es' & M' & S' & I' & _).
        exists es'. cbn [te_c set_log cs_log]. rewrite I'.
        split; [exact M'|]. split; [exact Hip|]. split; [exact Hl|left]. split; [exact S'|].
        apply tinv_log, T.
      + change (INCONSISTENT_DIRECTORY =? INCONSISTENT_DIRECTORY) with true in A. cbn [negb] in A.
        injection A as <-. exists es. cbn [te_c set_log cs_log]. auto 10. }
  unfold tses_step in E. destruct e as [| | |ts ts'|l].
  - destruct (te_phase s); try discriminate E. destruct resuming; [discriminate E|]. injection E as <-. apply Same.
  - destruct (te_phase s); try discriminate E. destruct resuming; [|discriminate E]. injection E as <-. apply Same.
  - destruct (te_phase s); try discriminate E. injection E as <-. apply Same.
  - destruct (Hts ts ts' eq_refl) as [Ht Ht'].
    destruct (te_phase s); try discriminate E;
      destruct (addTransferLogHeader ts ts' true block resuming (cs_log (te_c s))) as [m| |] eqn:A; try discriminate E;
      injection E as <-; exact (Header ts ts' m Ht Ht' A).
  - destruct (tree_step c l (te_c s)) as [c'|] eqn:T; [|discriminate E]. injection E as <-.
    assert (EL : cs_log c' = cs_log (te_c s)).
    { apply (tree_step_log c l _ _ (mg_entries _ _ _ M)); [|exact T].
      destruct (mg_holds _ _ _ M) as [H1 H2]. rewrite H1, H2. reflexivity. }
    exists es. cbn [te_c]. rewrite EL. split; [exact M|]. split; [exact Hip|]. split; [exact Hl|].
    destruct St as [[S I0]|D]; [left|right; exact D]. split; [exact S|].
    exact (tree_step_tinv c p infos Hpre Hp told (te_c s) l c' I0 (Hc l eq_refl S) T).
Qed.

Lemma run_sinv c p infos rid block resuming : c_prealloc c = false -> tree_plan p infos ->
  forall s0 t0 s told, tree_run c block resuming p infos s0 t0 s told ->
  sinv c p infos rid t0 s0 -> sinv c p infos rid told s.
Proof.
  intros Hpre Hp s0 t0 s told R. induction R as [s told|s0 t0 s told e s' R IH Ht Hc E]; intros I0; [exact I0|].
  exact (step_sinv c p infos rid told s e s' block resuming Hpre Hp (IH I0) Ht Hc E).
Qed.

Lemma session_sinv c d log s : durable_tree c d log -> tree_session c d log s ->
  exists p infos rid told, sinv c p infos rid told s.
Proof.
  intros D (now & ts & ts1 & rid & fuel & root & E & dis & peer & block & resuming & p & n & infos & m & infos' & m' & told & H).
  destruct H as (Hnow & Hts & Hts1 & Hpeer & Hl & Hsh & Hi & Hb & Hp & R).
  destruct (init_tree c now ts rid fuel root E d log infos m D Hts Hi) as (Hpre & es & M & St).
  destruct (begin_tree rid ts1 dis peer infos m es infos' m' M Hts1 Hb) as (Eip & B).
  set (fi := if resuming then infos' else []) in *.
  exists p, fi, rid, told. apply (run_sinv c p fi rid block resuming Hpre Hp _ _ _ _ R).
  unfold sinv. cbn [te_c tses_begin c_begin cs_log]. rewrite Eip.
  destruct B as [(-> & M' & S')|(-> & S' & es' & M' & D')].
  - exists es. split; [exact M'|]. split; [exact Hpeer|]. split; [exact Hl|].
    destruct St as [(S & Ar & T)|(S & -> & De)]; [left|right; split; [congruence|exact De]].
    split; [congruence|]. destruct (traversal_sound fuel root E infos T) as [_ W].
    assert (Sz : forall i v, In i fi -> d (fc_fileName i) = Some v -> zlen v = fc_fileSize i).
    { intros i v Hin Hv. assert (Hin' : In i infos) by (unfold fi in Hin; destruct resuming; [exact Hin|destruct Hin]).
      destruct (Hsh _ _ (proj1 (W i Hin'))) as (f & Hf & Ef). congruence. }
    assert (Hthr : forall i u, nth_error (repeat {| ct_op := OIdle; ct_wait := [] |} n) i = Some u ->
              u = {| ct_op := OIdle; ct_wait := [] |}).
    { intros i u Hu. apply nth_error_In, repeat_spec in Hu; exact Hu. }
    constructor; cbn [cs_disk cs_map cs_thr].
    + exact Ar.
    + intros ? ? [].
    + intros q f z v Hq Ha Hz Hv. destruct Hz as [[N _]|(_ & i & Hin & En & ->)]; [contradiction|].
      pose proof (Sz i v Hin ltac:(rewrite En; exact Hv)) as Ei.
      destruct (tp_kind _ _ Hp _ _ Hq) as [K|[K|[(_ & j & Hj & Enj & Lj)|[K _]]]];
        try (rewrite Ha in K; discriminate K).
      pose proof (Sz j v Hj ltac:(rewrite Enj; exact Hv)). lia.
    + intros i u Hu. rewrite (Hthr i u Hu). exact I.
    + intros i j u v b b' Hu _ A. rewrite (Hthr i u Hu) in A. discriminate A.
  - exists es'. split; [exact M'|]. split; [exact Hpeer|]. split; [exact Hl|right]. auto.
Qed.

Lemma survives_tree c d log : tree_survives c d log -> durable_tree c d log.
Proof.
  induction 1 as [d Hr|d log name H IH|d log s H IH Hs|d log s ts keep log' H IH Hs Hc|d log s ts keep log' H IH Hs Ht Hr Hc].
  - exists []. split; [reflexivity|]. split; [constructor|]. auto.
  - destruct IH as (es & E & F & R). exists es. split; [exact E|]. split; [exact F|].
    intros o Ho n f x v. unfold dput. destruct (str_eqb n name); [discriminate|]. apply (R o Ho).
  - destruct (session_sinv c d log s IH Hs) as (p & infos & rid & told & es & M & _ & _ & St).
    exists es. split; [apply (mg_holds _ _ _ M)|]. split; [apply (mg_log _ _ _ M)|].
    intros o Ho. destruct St as [[_ T]|[_ D]]; [apply (ti_right _ _ _ _ _ T)|].
    rewrite (D o OK) in Ho. discriminate Ho.
  - cbn in Hc. injection Hc as <-.
    destruct (session_sinv c d log s IH Hs) as (p & infos & rid & told & es & M & _ & _ & St).
    exists es. split; [apply (mg_holds _ _ _ M)|]. split; [apply (mg_log _ _ _ M)|].
    intros o Ho. destruct St as [[_ T]|[_ D]]; [apply (ti_right _ _ _ _ _ T)|].
    rewrite (D o OK) in Ho. discriminate Ho.
  - destruct (session_sinv c d log s IH Hs) as (p & infos & rid & told & es & M & Hip & Hl & St).
    assert (Ar : all_right c (cs_disk (te_c s))).
    { destruct St as [[_ T]|[S _]]; [apply (ti_right _ _ _ _ _ T)|apply Hr; rewrite S; discriminate]. }
    unfold tree_close in Hc. cbn [andb negb] in Hc.
    assert (Done : forall es', Forall tree_entry es' -> log' = log_bytes es' \/ log' = [] -> durable_tree c (cs_disk (te_c s)) log').
    { intros es' F [->| ->]; [exists es'|exists []]; (split; [reflexivity|]); (split; [assumption || constructor|auto]). }
    destruct St as [[S _]|[S _]]; rewrite S in Hc.
    + change (OK =? INCONSISTENT_DIRECTORY) with false in Hc. change (OK =? INVALID_LOG) with false in Hc.
      cbn [obind orb] in Hc. apply (Done es (mg_log _ _ _ M)). rewrite (proj1 (mg_holds _ _ _ M)) in Hc.
      destruct keep; injection Hc as <-; auto.
    + change (INCONSISTENT_DIRECTORY =? INCONSISTENT_DIRECTORY) with true in Hc.
      change (INCONSISTENT_DIRECTORY =? INVALID_LOG) with false in Hc.
      destruct (writeLogHeader ts (cs_log (te_c s))) as [m'| |] eqn:W; cbn [obind orb] in Hc; try discriminate Hc.
      destruct (mgr_header rid _ es ts m' M Ht Hip Hl W) as (es' & M' & _).
      apply (Done es' (mg_log _ _ _ M')). rewrite (proj1 (mg_holds _ _ _ M')) in Hc.
      destruct keep; injection Hc as <-; auto.
Qed.

Lemma rd_in (f : list Z) x : 0 <= x < zlen f -> exists v, rd f x = Some v.
Proof.
  intros H. unfold rd. destruct (Z.ltb_spec x 0); [lia|]. unfold zlen in H.
  destruct (nth_error f (Z.to_nat x)) as [v|] eqn:E; [eauto|].
  apply nth_error_None in E. lia.
Qed.

(** C58. *)
Lemma tree_reported c d log now ts rid fuel root E infos m : tree_survives c d log ->
  shows root E d -> in_nat63 ts ->
  tree_init now ts (c_prealloc c) rid fuel root E log = Ret (Some (infos, m)) ->
  forall name x, reported infos name x ->
    exists f, d name = Some f /\ rd f x = Some (c_src c name x).
Proof.
  intros H Hsh Ht Hi name x (i & Hin & <- & iv & Hiv & Hx).
  destruct (init_tree c now ts rid fuel root E d log infos m (survives_tree c d log H) Ht Hi)
    as (_ & es & _ & [(_ & Ar & T)|(_ & -> & _)]); [|destruct Hin].
  destruct (traversal_sound fuel root E infos T) as [Wf W]. rewrite Forall_forall in Wf.
  destruct (Wf i Hin) as [Ec _]. rewrite Ec in Hiv. destruct Hiv as [<-|[]]. cbn in Hx.
  destruct (Hsh _ _ (proj1 (W i Hin))) as (f & Hf & Ez). exists f. split; [exact Hf|].
  destruct (rd_in f x ltac:(lia)) as [v Hv]. rewrite Hv. f_equal. exact (Ar _ _ _ _ Hf Hv).
Qed.

(** Nothing in a log makes the parser report a file in this mode. *)
Lemma entry_tree o e st s st' s' : po_dirTree o = true -> po_parseOnly o = false -> p_files s = [] ->
  parseEntry o e st s = Ret (st', s') -> st' = INVALID_LOG \/ p_files s' = [].
Proof.
  intros Ht Hp Hf. unfold parseEntry. destruct e as [|type buf]; [discriminate|].
  destruct ((st =? INCONSISTENT_DIRECTORY) && negb (type =? HEADER)).
  { intros X; injection X as <- <-. auto. }
  assert (Fin : forall m : outcome (Z * pstate),
    (forall st1 s1, m = Ret (st1, s1) -> st1 = INVALID_LOG \/ p_files s1 = []) ->
    obind m (fun r => let '(st, s') := r in
       if st =? INCONSISTENT_DIRECTORY then Ret (st, clearParsedData s') else Ret (st, s')) = Ret (st', s') ->
    st' = INVALID_LOG \/ p_files s' = []).
  { intros [[st1 s1]| |] Hm X; cbn [obind] in X; try discriminate X.
    destruct (st1 =? INCONSISTENT_DIRECTORY) eqn:Es; injection X as <- <-; [right; reflexivity|].
    apply Hm; reflexivity. }
  apply Fin. clear Fin. intros st1 s1.
  repeat match goal with |- (if ?b then _ else _) = _ -> _ => destruct b end.
  - unfold processHeaderEntry. destruct (_ <? _); [intros X; injection X as <- <-; auto|].
    destruct (decodeLogHeader buf) as [[[[[[t v] r] ip] cf]|]| |]; cbn [obind]; try discriminate;
      [|intros X; injection X as <- <-; auto].
    rewrite Hp. repeat match goal with |- (if ?b then _ else _) = _ -> _ => destruct b end;
      intros X; injection X as <- <-; auto.
  - unfold processFileCreationEntry. destruct (negb (p_hdr s)); [intros X; injection X as <- <-; auto|].
    destruct (decodeFileCreationEntry buf) as [[[[[t n] q] z]|]| |]; cbn [obind]; try discriminate;
      [|intros X; injection X as <- <-; auto].
    rewrite Hp, Ht. intros X; injection X as <- <-; auto.
  - unfold processBlockWriteEntry. destruct (negb (p_hdr s)); [intros X; injection X as <- <-; auto|].
    destruct (decodeBlockWriteEntry buf) as [[[[[t n] q] z]|]| |]; cbn [obind]; try discriminate;
      [|intros X; injection X as <- <-; auto].
    rewrite Hp, Ht. intros X; injection X as <- <-; auto.
  - unfold processFileResizeEntry. destruct (negb (p_hdr s)); [intros X; injection X as <- <-; auto|].
    destruct (decodeFileResizeEntry buf) as [[[[t q] z]|]| |]; cbn [obind]; try discriminate;
      [|intros X; injection X as <- <-; auto].
    rewrite Hp, Ht. intros X; injection X as <- <-; auto.
  - unfold processFileInvalidationEntry. destruct (negb (p_hdr s)); [intros X; injection X as <- <-; auto|].
    destruct (decodeFileInvalidationEntry buf) as [[[t q]|]| |]; cbn [obind]; try discriminate;
      [|intros X; injection X as <- <-; auto].
    rewrite Hp, Ht. intros X; injection X as <- <-; auto.
  - unfold processDirectoryInvalidationEntry.
    destruct (decodeDirectoryInvalidationEntry buf) as [[t|]| |]; cbn [obind]; try discriminate;
      [|intros X; injection X as <- <-; auto].
    rewrite Hp. intros X; injection X as <- <-; auto.
  - intros X; injection X as <- <-; auto.
Qed.
Lemma loop_tree o : po_dirTree o = true -> po_parseOnly o = false ->
  forall fuel f st s st' f' s', p_files s = [] ->
  parse_loop fuel o f st s = Ret (inl (st', f', s')) -> p_files s' = [].
Proof.
  intros Ht Hp. induction fuel as [|fuel IH]; intros f st s st' f' s' Hf; cbn [parse_loop]; [discriminate|].
  destruct (fread f 2) as [szb f1]. destruct (zlen szb =? 0); [intros X; injection X as <- <- <-; exact Hf|].
  destruct (negb (zlen szb =? 2)); [intros X; injection X as <- <- <-; exact Hf|].
  destruct (_ || _); [discriminate|]. destruct (fread f1 _) as [en f2].
  destruct (negb _); [intros X; injection X as <- <- <-; exact Hf|].
  destruct (parseEntry o en st s) as [[st1 s1]| |] eqn:P; cbn [obind]; try discriminate.
  destruct (Z.eqb_spec st1 INVALID_LOG) as [|N]; [discriminate|].
  apply IH. destruct (entry_tree o en st s st1 s1 Ht Hp Hf P); [contradiction|assumption].
Qed.
Lemma tree_log_no_files now o f ip r : po_dirTree o = true -> po_parseOnly o = false ->
  parseLog now o f ip = Ret r -> pr_infos r = [].
Proof.
  intros Ht Hp. unfold parseLog.
  destruct (parse_loop _ o f OK (p_init ip)) as [[[[st f1] s]|[f1 s]]| |] eqn:L; cbn [obind]; try discriminate.
  - apply loop_tree in L; [|exact Ht|exact Hp|reflexivity].
    destruct (st =? OK); [|intros X; injection X as <-; reflexivity].
    destruct (writeFileInvalidationEntries now f1 (p_invalid s)); cbn [obind]; try discriminate.
    intros X; injection X as <-. cbn [pr_infos]. rewrite L. reflexivity.
  - intros X; injection X as <-; reflexivity.
Qed.

(** If anything is reported, the log ends in a matching session, or is empty. *)
Lemma tree_only_valid now ts prealloc rid fuel root E es infos m : (forall q, in_nat63 (now q)) ->
  Forall entry_ok es -> Forall block_in_range es ->
  tree_init now ts prealloc rid fuel root E (log_bytes es) = Ret (Some (infos, m)) ->
  infos <> [] -> tm_status m = OK /\ exists seg, current_session (tree_popts rid) es seg.
Proof.
  intros Hn Hok Hbr. unfold tree_init. destruct prealloc; [discriminate|].
  destruct (recovery_faithful now (tree_popts rid) es [] eq_refl Hok Hbr Hn) as (r & P & F & _).
  pose proof (tree_log_no_files now (tree_popts rid) (file_of (log_bytes es)) [] r eq_refl eq_refl P) as Ei.
  unfold parseVerifyAndFix. cbn [tm_open negb tm_file tm_ip]. unfold file_of in P. rewrite P. cbn [obind].
  rewrite Ei.
  destruct (Z.eqb_spec (pr_status r) INVALID_LOG) as [Eq|N1].
  { change (INVALID_LOG =? OK) with false. cbn [obind]. intros X; injection X as <- <-. intros K; contradiction. }
  destruct ((pr_status r =? INCONSISTENT_DIRECTORY) && negb (po_parseOnly (tree_popts rid))) eqn:N2.
  - cbn [tm_open tm_rid tm_config tm_entries tm_headerWritten].
    unfold invalidateDirectory. cbn [tm_open negb].
    destruct (encodeDirectoryInvalidationEntry ts entry_buf kMaxEntryLength) as [w| |]; cbn [obind]; try discriminate.
    cbn [tm_status]. change (INCONSISTENT_DIRECTORY =? OK) with false.
    intros X; injection X as <- <-. intros K; contradiction.
  - cbn [obind]. destruct (Z.eqb_spec (pr_status r) OK) as [St|].
    + destruct (traverseDestinationDir fuel root E) as [[l|]| |]; cbn [obind]; try discriminate.
      intros X; injection X as <- <-. intros _. split; [exact St|].
      destruct (F St) as (seg & _ & Hc & _). eauto.
    + intros X; injection X as <- <-. intros K; contradiction.
Qed.

(** The sender has another address than the one in the log. *)
Lemma tree_other_sender ts peer infos m es : in_nat63 ts -> tm_open m = true -> holds (tm_file m) es ->
  tm_ip m <> [] -> tm_ip m <> peer ->
  exists m', tree_begin ts false peer infos m = Ret ([], m') /\
    holds (tm_file m') (es ++ [LDirInval ts]) /\ tm_status m' = INCONSISTENT_DIRECTORY /\ tm_ip m' = peer.
Proof.
  intros Ht Ho Hh H1 H2. unfold tree_begin, verifySenderIp. rewrite Ho. cbn [negb orb].
  rewrite (zlen_pos _ H1). cbn [orb].
  destruct (str_eqb (tm_ip m) peer) eqn:E; [apply str_eqb_eq in E; contradiction|].
  destruct (write_dir_inval ts m es Ht Ho Hh) as (m1 & E1 & Hh1 & S1 & _). rewrite E1. cbn [obind fst snd].
  eexists. split; [reflexivity|]. auto.
Qed.

(** What becomes of the log when the transfer begins. *)
Lemma tree_header_decision ts ts' block resuming m m' es : in_nat63 ts -> in_nat63 ts' ->
  tm_open m = true -> tm_entries m = [] -> tm_config m = 2 -> holds (tm_file m) es ->
  zlen (tm_rid m) + zlen (tm_ip m) <= 4103 ->
  addTransferLogHeader ts ts' true block resuming m = Ret m' ->
  (resuming = false \/ block = true ->
     holds (tm_file m') (es ++ [LDirInval ts]) /\ tm_status m' = INCONSISTENT_DIRECTORY) /\
  (resuming = true -> block = false -> tm_status m = INCONSISTENT_DIRECTORY -> m' = m) /\
  (resuming = true -> block = false -> tm_status m <> INCONSISTENT_DIRECTORY ->
     holds (tm_file m') (es ++ [LHeader ts' 2 (tm_rid m) (tm_ip m) 2]) /\ tm_status m' = OK).
Proof.
  intros Ht Ht' Ho He Hc Hh Hl A. unfold addTransferLogHeader in A. cbn [negb orb andb] in A.
  split; [|split].
  - intros K. assert (B : negb resuming || block = true) by (destruct K as [-> | ->]; [reflexivity|apply orb_true_r]).
    rewrite B in A. destruct (write_dir_inval ts m es Ht Ho Hh) as (m1 & E1 & Hh1 & S1 & _).
    rewrite E1 in A. cbn [obind] in A. rewrite S1 in A.
    change (INCONSISTENT_DIRECTORY =? INCONSISTENT_DIRECTORY) with true in A. cbn [negb] in A.
    injection A as <-. auto.
  - intros -> -> S. cbn [negb orb obind] in A. rewrite S in A.
    change (INCONSISTENT_DIRECTORY =? INCONSISTENT_DIRECTORY) with true in A. cbn [negb] in A.
    injection A as <-. reflexivity.
  - intros -> -> S. cbn [negb orb obind] in A.
    destruct (Z.eqb_spec (tm_status m) INCONSISTENT_DIRECTORY) as [|_]; [contradiction|]. cbn [negb] in A.
    assert (C2 : in_nat63 2) by (split; [lia|vm_compute; reflexivity]).
    pose proof (write_header ts' m es m' Ht' ltac:(rewrite Hc; exact C2) Hl Ho He Hh A) as (_ & _ & fl & un & En & H & _).
    symmetry in En. apply app_eq_nil in En. destruct En as [-> ->]. rewrite app_nil_r in H. unfold header in H.
    rewrite Hc in H. split; [exact H|].
    unfold writeLogHeader in A; rewrite Ho in A; cbn [negb] in A.
    destruct (encodeLogHeader ts' entry_buf kMaxEntryLength (tm_rid m) (tm_ip m) (tm_config m)); try discriminate A.
    cbn [obind] in A; injection A as <-; reflexivity.
Qed.

(** The exchange of chunks can be tried again as often as it fails. *)
Lemma tree_retry c block s : te_phase s = TpChunks ->
  tses_steps c block true s [TvChunksFail; TvChunks] = Some s.
Proof. intros H. destruct s as [k p]. cbn in *. subst p. reflexivity. Qed.
