(** Concrete sessions for C58. *)
From Verif Require Export Proofs.TreeResumeFacts.
From Verif Require Import Proofs.CrashWitness Proofs.ExploreWitness.
From Coq Require Import Lia.
Open Scope Z_scope.
Local Opaque Z.pow.

(** r/ holds nothing, or the file a. *)
Definition env_empty : xenv := table_env [(rt, ([ent [46] DtDir], false))] [] [] [].
Definition env_a (size : Z) : xenv :=
  table_env [(rt, ([ent [46] DtDir; ent name_a DtReg], false))] [(rt ++ name_a, (FkReg, size))] [] [].
Definition with_a (f : list Z) : disk := dput empty_disk name_a (Some f).

Lemma dirs_only_root l p x : at_path [(rt, l)] p = Some x -> p = rt /\ x = (l : list dent * bool).
Proof.
  cbn [at_path]. destruct (str_eqb rt p) eqn:E; [|discriminate].
  apply SourceQueueFacts.str_eqb_eq in E. intros X; injection X as <-; auto.
Qed.
Lemma reach_root size dir : reach (tree_xopts rt) (env_a size) [] dir -> dir = [].
Proof.
  induction 1 as [|dir d R IH En D S]; [reflexivity|]. subst dir. exfalso.
  destruct En as (l & bad & Op & In' & N1 & N2). cbn [tree_xopts xo_root env_a xe_opendir table_env app] in Op.
  apply dirs_only_root in Op. destruct Op as [_ X]. injection X as -> ->.
  destruct In' as [<-|[<-|[]]]; [cbn in N1; congruence|].
  destruct D as [D|[[z D]|[F _]]]; [discriminate D| |discriminate F].
  vm_compute in D. discriminate D.
Qed.
Lemma shows_a f size d : d name_a = Some f -> zlen f = size -> shows rt (env_a size) d.
Proof.
  intros Hd <- rel z (dir & d' & R & En & -> & F & _). apply reach_root in R. subst dir.
  destruct En as (l & bad & Op & In' & N1 & N2). cbn [tree_xopts xo_root env_a xe_opendir table_env app] in Op.
  apply dirs_only_root in Op. destruct Op as [_ X]. injection X as -> ->.
  destruct In' as [<-|[<-|[]]]; [cbn in N1; congruence|].
  destruct F as [F|[F _]]; [|discriminate F].
  cbn [tree_xopts xo_root env_a xe_lstat table_env app ent de_name] in F.
  exists f. split; [exact Hd|]. cbn in F. congruence.
Qed.
Lemma shows_none d : shows rt env_empty d.
Proof.
  intros rel size (dir & d' & R & En & -> & F & _). exfalso.
  destruct F as [F|[F _]]; [discriminate F|discriminate F].
Qed.
Lemma right_a c f : (forall x v, rd f x = Some v -> v = c_src c name_a x) -> all_right c (with_a f).
Proof.
  intros H n g x v. unfold with_a, dput. destruct (str_eqb n name_a) eqn:E; [|discriminate].
  apply SourceQueueFacts.str_eqb_eq in E. subst n. intros X; injection X as <-. apply H.
Qed.
Lemma right_none c : all_right c empty_disk.
Proof. intros n f x v H. discriminate H. Qed.

(** ---- checked execution ---- *)
Definition tlabel (bs : list block_details) (x : wstep + tev) : option tev :=
  match x with
  | inl w => match label_of bs w with Some l => Some (TvStep l) | None => None end
  | inr (TvStep _) => None
  | inr e => Some e
  end.
Definition tcare (c : ccfg) (e : tev) (s : tses) : bool :=
  match e with
  | TvHeader a b => nat63b a && nat63b b
  | TvStep (CWrite i d) =>
      match nth_error (cs_thr (te_c s)) i with
      | Some t => match ct_op t with
                  | OWrite b k _ => right_bytes (c_src c (bd_fileName b)) (bd_offset b + k) d
                  | _ => false
                  end
      | None => false
      end
  | _ => true
  end.
Fixpoint trun (c : ccfg) (block resuming : bool) (bs : list block_details) (l : list (wstep + tev))
    (s : tses) (told : list (list Z * Z)) : option (tses * list (list Z * Z)) :=
  match l with
  | [] => Some (s, told)
  | x :: r =>
      match tlabel bs x with
      | None => None
      | Some e =>
          if tcare c e s then
            match tses_step c block resuming s e with
            | Some s' => trun c block resuming bs r s'
                           (match e with TvStep l => told_after l (te_c s) told | _ => told end)
            | None => None
            end
          else None
      end
  end.
Lemma tlabel_head bs x i b : tlabel bs x = Some (TvStep (CHeader i b)) -> In b bs.
Proof.
  destruct x as [w|e]; cbn [tlabel].
  - destruct (label_of bs w) as [l|] eqn:E; [|discriminate]. intros X; injection X as ->.
    exact (label_head bs w i b E).
  - destruct e; discriminate.
Qed.
Lemma trun_ok c block resuming p infos bs :
  (forall b, In b bs -> planned p b /\
     exists f, p (bd_seqId b) = Some f /\ first_offset infos f (bd_offset b)) ->
  forall l s told s' told' s0 t0, trun c block resuming bs l s told = Some (s', told') ->
  tree_run c block resuming p infos s0 t0 s told -> tree_run c block resuming p infos s0 t0 s' told'.
Proof.
  intros Hb. induction l as [|x l IH]; intros s told s' told' s0 t0 E R; cbn [trun] in E.
  - injection E as <- <-. exact R.
  - destruct (tlabel bs x) as [e|] eqn:L; [|discriminate E].
    destruct (tcare c e s) eqn:Cr; [|discriminate E].
    destruct (tses_step c block resuming s e) as [s1|] eqn:St; [|discriminate E].
    refine (IH _ _ _ _ _ _ E (TRE _ _ _ _ _ _ _ _ _ e s1 R _ _ St)).
    + intros a b ->. cbn [tcare] in Cr. apply andb_true_iff in Cr. destruct Cr as [A B].
      split; apply nat63b_ok; assumption.
    + intros lab -> _. destruct lab; try exact I.
      * destruct (Hb b (tlabel_head _ _ _ _ L)) as (P & f & Pf & Fo). split; [exact P|right].
        exists f. auto.
      * cbn [tree_careful tcare] in *. intros t b n r Ht Hop. rewrite Ht, Hop in Cr. exact Cr.
Qed.
(** A session of one or more threads; its state at the end of the events. *)
Definition tsess (c : ccfg) (n : nat) (d : disk) (log : list Z) (E : xenv) (block resuming : bool)
    (bs : list block_details) (l : list (wstep + tev))
  : option (list file_chunks * (tlm * (tses * list (list Z * Z)))) :=
  match tree_init (fun _ => 0) 0 (c_prealloc c) [1] 9 rt E log with
  | Ret (Some (infos, m)) =>
      match tree_begin 0 false [9] infos m with
      | Ret (infos', m') =>
          match trun c block resuming bs l (tses_begin n d m') [] with
          | Some r => Some (infos', (m', r))
          | None => None
          end
      | _ => None
      end
  | _ => None
  end.
Definition gone : list file_chunks * (tlm * (tses * list (list Z * Z))) :=
  ([], (nolog, (tses_begin 0 empty_disk nolog, []))).
Definition ses (o : option (list file_chunks * (tlm * (tses * list (list Z * Z))))) : tses :=
  fst (snd (snd (from o gone))).
Definition some (o : option (list file_chunks * (tlm * (tses * list (list Z * Z))))) : bool :=
  match o with Some _ => true | None => false end.
Lemma tsess_session c n d log E block (resuming : bool) bs l p infos :
  some (tsess c n d log E block resuming bs l) = true ->
  fst (from (tsess c n d log E block resuming bs l) gone) = infos -> shows rt E d ->
  tree_plan p (if resuming then infos else []) ->
  (forall b, In b bs -> planned p b /\
     exists f, p (bd_seqId b) = Some f /\ first_offset (if resuming then infos else []) f (bd_offset b)) ->
  tree_session c d log (ses (tsess c n d log E block resuming bs l)).
Proof.
  unfold ses, tsess. destruct (tree_init _ _ _ _ _ _ _ _) as [[[i0 m0]|]| |] eqn:I0; try discriminate.
  destruct (tree_begin _ _ _ _ _) as [[i1 m1]| |] eqn:B0; try discriminate.
  destruct (trun _ _ _ _ _ _ _) as [[s told]|] eqn:R; [|discriminate].
  cbn [from fst snd]. intros _ <- Hs Hp Hb.
  exists (fun _ => 0), 0, 0, [1], 9%nat, rt, E, false, [9], block, resuming, p, n, i0, m0, i1, m1, told.
  split; [intros _; exact nat63_0|]. split; [exact nat63_0|]. split; [exact nat63_0|].
  split; [discriminate|]. split; [vm_compute; discriminate|]. split; [exact Hs|]. split; [exact I0|].
  split; [exact B0|]. split; [exact Hp|].
  eapply trun_ok; [exact Hb|exact R|apply TR0].
Qed.

Lemma plan1_tree q size alloc prev infos :
  (alloc = NOT_EXISTS \/
   alloc = EXISTS_TOO_SMALL /\ exists i, In i infos /\ fc_fileName i = name_a /\ fc_fileSize i < size) ->
  tree_plan (plan1 q size alloc prev) infos.
Proof.
  intros Ha. constructor.
  - intros q1 q2 f1 f2 H1 H2 _. apply plan1_some in H1, H2. lia.
  - intros k f H. apply plan1_some in H. destruct H as [_ ->]. cbn [pl_alloc pl_name pl_size].
    destruct Ha as [->|[-> Hi]]; auto.
Qed.

Definition c5 : ccfg := cfg false true 5.
Definition b_new : block_details := blk 1 4 NOT_EXISTS 0 0 4.
Definition b_more : block_details := blk 1 4 EXISTS_TOO_SMALL 1 2 2.
Definition b_half : block_details := blk 1 4 NOT_EXISTS 0 2 2.
Definition begin_resuming : list (wstep + tev) := [inr TvChunks; inr (TvHeader 1 1)].
(** First session: two of four bytes arrive. Second session: one more. *)
Notation s1 := (tsess c5 1 empty_disk [] env_empty false true [b_new] (begin_resuming ++ map inl (fresh 0 [5; 5]))).
Definition log_left (s : tses) : list Z := lf_data (tm_file (cs_log (te_c s))).
Definition infos_a (size : Z) : list file_chunks :=
  [{| fc_seqId := 1; fc_fileName := name_a; fc_fileSize := size; fc_chunks := [{| iv_start := 0; iv_end := size |}] |}].
Definition log_valid : list Z := log_bytes [LHeader 1 2 [1] [9] 2].

Lemma s1_log : log_left (ses s1) = log_valid.
Proof. vm_compute. reflexivity. Qed.
Definition d1 : disk := cs_disk (te_c (ses s1)).
Notation s2 := (tsess c5 1 d1 log_valid (env_a 2) false true [b_more] (begin_resuming ++ map inl (fresh 0 [5]))).
Definition d2 : disk := cs_disk (te_c (ses s2)).
Lemma nat63_1 : in_nat63 1.
Proof. split; [lia|vm_compute; reflexivity]. Qed.
Lemma in_one {A} (a b : A) : In b [a] -> b = a.
Proof. intros [<-|[]]; reflexivity. Qed.
Lemma new_planned infos b : In b [b_new] -> planned (plan1 1 4 NOT_EXISTS 0) b /\
  exists f, plan1 1 4 NOT_EXISTS 0 (bd_seqId b) = Some f /\ first_offset infos f (bd_offset b).
Proof.
  intros H. apply in_one in H. subst b. split.
  - apply blk_planned; try exact nat63_0; try lia; (exact nat63_1 || (vm_compute; reflexivity)).
  - eexists. split; [reflexivity|]. left. split; [discriminate|reflexivity].
Qed.
Lemma more_planned b : In b [b_more] -> planned (plan1 1 4 EXISTS_TOO_SMALL 1) b /\
  exists f, plan1 1 4 EXISTS_TOO_SMALL 1 (bd_seqId b) = Some f /\ first_offset (infos_a 2) f (bd_offset b).
Proof.
  intros H. apply in_one in H. subst b.
  assert (N1 : in_nat63 1) by (split; [lia|vm_compute; reflexivity]). split.
  - apply blk_planned; try exact N1; try lia.
  - eexists. split; [reflexivity|]. right. split; [reflexivity|].
    eexists. split; [left; reflexivity|]. split; reflexivity.
Qed.
Lemma s1_session : tree_session c5 empty_disk [] (ses s1).
Proof.
  apply (tsess_session c5 1 empty_disk [] env_empty false true [b_new] _ (plan1 1 4 NOT_EXISTS 0) []).
  - vm_compute. reflexivity.
  - vm_compute. reflexivity.
  - apply shows_none.
  - apply plan1_tree. left; reflexivity.
  - apply new_planned.
Qed.
Lemma s2_session : tree_session c5 d1 log_valid (ses s2).
Proof.
  apply (tsess_session c5 1 d1 log_valid (env_a 2) false true [b_more] _ (plan1 1 4 EXISTS_TOO_SMALL 1) (infos_a 2)).
  - vm_compute. reflexivity.
  - vm_compute. reflexivity.
  - apply (shows_a [5; 5]); vm_compute; reflexivity.
  - apply plan1_tree. right. split; [reflexivity|]. eexists. split; [left; reflexivity|].
    split; [reflexivity|vm_compute; reflexivity].
  - exact more_planned.
Qed.
Lemma survives_1 : tree_survives c5 d1 log_valid.
Proof. rewrite <- s1_log. exact (TS_dies c5 _ _ _ (TS_new c5 _ (right_none c5)) s1_session). Qed.
Lemma survives_2 : tree_survives c5 d2 (log_left (ses s2)).
Proof. exact (TS_dies c5 _ _ _ survives_1 s2_session). Qed.

Lemma init_report (d : disk) log size infos :
  match tree_init (fun _ => 0) 0 false [1] 9 rt (env_a size) log with
  | Ret (Some (i, m)) => i = infos /\ tm_status m = OK
  | _ => False
  end -> exists m, tree_init (fun _ => 0) 0 false [1] 9 rt (env_a size) log = Ret (Some (infos, m)) /\ tm_status m = OK.
Proof. destruct (tree_init _ _ _ _ _ _ _ _) as [[[i m]|]| |]; try contradiction. intros [-> H]. eauto. Qed.
Lemma reported_a size x : 0 <= x < size -> reported (infos_a size) name_a x.
Proof. intros H. eexists. split; [left; reflexivity|]. split; [reflexivity|]. eexists. split; [left; reflexivity|exact H]. Qed.

(** Two sessions ended by death; three bytes are there and three are reported. *)
Lemma two_tree_sessions : exists d log E infos m, tree_survives c5 d log /\ shows rt E d /\
  tree_init (fun _ => 0) 0 (c_prealloc c5) [1] 9 rt E log = Ret (Some (infos, m)) /\
  reported infos name_a 0 /\ reported infos name_a 2 /\ d name_a = Some [5; 5; 5].
Proof.
  destruct (init_report d2 (log_left (ses s2)) 3 (infos_a 3)) as (m & Hm & _); [vm_compute; auto|].
  exists d2, (log_left (ses s2)), (env_a 3), (infos_a 3), m. split; [exact survives_2|].
  split; [apply (shows_a [5; 5; 5]); vm_compute; reflexivity|]. split; [exact Hm|].
  split; [apply reported_a; lia|]. split; [apply reported_a; lia|vm_compute; reflexivity].
Qed.

(** ---- refutations ---- *)
Lemma misreports_a d log f size x : d name_a = Some f -> zlen f = size -> 0 <= x < size ->
  match tree_init (fun _ => 0) 0 false [1] 9 rt (env_a size) log with
  | Ret (Some (i, m)) => i = infos_a size /\ tm_status m = OK
  | _ => False
  end -> rd f x <> Some 5 -> tree_misreports c5 [1] rt (env_a size) d log name_a x.
Proof.
  intros Hd Hz Hx Hi Hr. split; [exact (shows_a f size d Hd Hz)|].
  destruct (init_report d log size _ Hi) as (m & Hm & _).
  exists 9%nat, (infos_a size), m, f. split; [exact Hm|]. split; [apply reported_a; exact Hx|]. auto.
Qed.
(** Files that were there before are trusted when there is no log. *)
Lemma existing_trusted : exists c E d, shows rt E d /\ tree_misreports c [1] rt E d [] name_a 0.
Proof.
  exists c5, (env_a 1), (with_a [7]).
  assert (M : tree_misreports c5 [1] rt (env_a 1) (with_a [7]) [] name_a 0).
  { apply (misreports_a _ _ [7]); try reflexivity; [lia|vm_compute; auto|discriminate]. }
  split; [exact (proj1 M)|exact M].
Qed.
(** Damaged bytes are on disk before the checksum is looked at. *)
Definition damage : list tev := map TvStep [CWrite 0 [7; 7]; CSync 0; CDrop 0].
Definition b_last : block_details := blk 1 2 NOT_EXISTS 0 0 2.
Notation s3 := (tsess c5 1 empty_disk [] env_empty false true [b_last] (begin_resuming ++ map inl (firstn 6 (fresh 0 [])))).
Definition s3' := from (tses_steps c5 false true (ses s3) damage) (ses s3).
Lemma damage_trusted : exists c s s' E, c_verify c = true /\ tree_session c empty_disk [] s /\
  tses_steps c false true s damage = Some s' /\ cs_marked (te_c s') = [] /\
  tree_misreports c [1] rt E (cs_disk (te_c s')) (lf_data (tm_file (cs_log (te_c s')))) name_a 1.
Proof.
  exists c5, (ses s3), s3', (env_a 2). split; [reflexivity|]. split; [|split; [|split]].
  - apply (tsess_session c5 1 empty_disk [] env_empty false true [b_last] _ (plan1 1 2 NOT_EXISTS 0) []).
    + vm_compute. reflexivity.
    + vm_compute. reflexivity.
    + apply shows_none.
    + apply plan1_tree. left; reflexivity.
    + intros b H. apply in_one in H. subst b. split.
      * apply blk_planned; try exact nat63_0; try lia; (exact nat63_1 || (vm_compute; reflexivity)).
      * eexists. split; [reflexivity|]. left. split; [discriminate|reflexivity].
  - unfold s3'. destruct (tses_steps c5 false true (ses s3) damage) eqn:E; [reflexivity|].
    exfalso. assert (B : match tses_steps c5 false true (ses s3) damage with None => false | _ => true end = true)
      by (vm_compute; reflexivity). rewrite E in B. discriminate B.
  - vm_compute. reflexivity.
  - apply (misreports_a _ _ [7; 7]); [vm_compute; reflexivity|reflexivity|lia|vm_compute; auto|discriminate].
Qed.
(** A sender that does not resume and works with blocks: one thread is about to write
    that the directory is not valid; another one does not wait for it. *)
Definition race : list tev :=
  TvFile :: map TvStep [CHeader 0 b_half; COpen 0; CTrunc 0; CAlloc 0; CInval 0 1; CCreate 0 1; CWrite 0 [5; 5]].
Definition m0 : tlm := snd (from (match tree_init (fun _ => 0) 0 false [1] 9 rt env_empty [] with
  Ret (Some r) => Some r | _ => None end) ([], nolog)).
Definition m1 : tlm := snd (match tree_begin 0 false [9] [] m0 with Ret r => r | _ => ([], nolog) end).
Definition s4 := from (tses_steps c5 true false (tses_begin 2 empty_disk m1) race) (tses_begin 2 empty_disk m1).
Lemma race_trusted : exists c E0 m m' p l s E,
  tree_survives c empty_disk [] /\ shows rt E0 empty_disk /\
  tree_init (fun _ => 0) 0 (c_prealloc c) [1] 9 rt E0 [] = Ret (Some ([], m)) /\
  tree_begin 0 false [9] [] m = Ret ([], m') /\ tree_plan p [] /\
  tses_steps c true false (tses_begin 2 empty_disk m') l = Some s /\
  steps_right c true false p (tses_begin 2 empty_disk m') l /\
  tree_misreports c [1] rt E (cs_disk (te_c s)) (lf_data (tm_file (cs_log (te_c s)))) name_a 0.
Proof.
  exists c5, env_empty, m0, m1, (plan1 1 4 NOT_EXISTS 0), race, s4, (env_a 4).
  split; [exact (TS_new c5 _ (right_none c5))|]. split; [apply shows_none|].
  split; [vm_compute; reflexivity|]. split; [vm_compute; reflexivity|].
  split; [apply plan1_tree; left; reflexivity|]. split; [|split].
  - unfold s4. destruct (tses_steps c5 true false (tses_begin 2 empty_disk m1) race) eqn:E; [reflexivity|].
    exfalso. assert (B : match tses_steps c5 true false (tses_begin 2 empty_disk m1) race with None => false | _ => true end = true)
      by (vm_compute; reflexivity). rewrite E in B. discriminate B.
  - assert (G : forall s, steps_right c5 true false (plan1 1 4 NOT_EXISTS 0) s race).
    { intros s. cbn [race map steps_right]. split; [exact I|]. intros ? _. split.
      { apply blk_planned; try exact nat63_0; try lia; (exact nat63_1 || (vm_compute; reflexivity)). }
      intros ? _. split; [exact I|]. intros ? _. split; [exact I|]. intros ? _. split; [exact I|].
      intros ? _. split; [exact I|]. intros ? _. split; [exact I|]. intros ? _. split; [|auto].
      intros t b n ok _ _. cbn [right_bytes c5 cfg c_src]. reflexivity. }
    apply G.
  - apply (misreports_a _ _ [0; 0; 5; 5]); [vm_compute; reflexivity|reflexivity|lia|vm_compute; auto|discriminate].
Qed.
(** A transfer that succeeds makes a directory valid in which files are wrong that it
    did not send. *)
Definition log_dead : list Z := log_bytes [LHeader 1 2 [1] [9] 2; LDirInval 1].
Definition no_plan : fplans := fun _ => None.
Notation s5 := (tsess c5 1 (with_a [7]) log_dead (env_a 1) false true [] begin_resuming).
Lemma stale_trusted : exists c d log s E log',
  (forall name x, ~ tree_misreports c [1] rt E d log name x) /\
  tree_session c d log s /\ cs_disk (te_c s) = d /\
  tree_close 1 true true (cs_log (te_c s)) = Ret log' /\
  tree_misreports c [1] rt E d log' name_a 0.
Proof.
  exists c5, (with_a [7]), log_dead, (ses s5), (env_a 1),
    (match tree_close 1 true true (cs_log (te_c (ses s5))) with Ret l => l | _ => [] end).
  split; [|split; [|split; [|split]]].
  - intros name x (_ & fuel & infos & m & f & Hi & (i & Hin & _) & _).
    assert (K : infos = []).
    { revert Hi. unfold tree_init. destruct (c_prealloc c5); [discriminate|].
      destruct (parseVerifyAndFix _ _ _ _) as [[[code inf] mm]| |] eqn:P; try discriminate.
      assert (V : code = INCONSISTENT_DIRECTORY /\ inf = []).
      { vm_compute in P. injection P as <- <- _. auto. }
      destruct V as [-> ->]. cbn [obind]. change (INCONSISTENT_DIRECTORY =? OK) with false.
      intros X. injection X as <- _. reflexivity. }
    rewrite K in Hin. exact Hin.
  - apply (tsess_session c5 1 (with_a [7]) log_dead (env_a 1) false true [] _ no_plan []).
    + vm_compute. reflexivity.
    + vm_compute. reflexivity.
    + apply (shows_a [7]); reflexivity.
    + constructor; [intros ? ? ? ? H; discriminate H|intros ? ? H; discriminate H].
    + intros b [].
  - vm_compute. reflexivity.
  - vm_compute. reflexivity.
  - apply (misreports_a _ _ [7]); [reflexivity|reflexivity|lia|vm_compute; auto|discriminate].
Qed.

(** For the examples of the other theorems. *)
Definition log_mgr (ip : list Z) (st : Z) : tlm :=
  {| tm_open := true; tm_file := {| lf_data := log_valid; lf_pos := zlen log_valid |}; tm_rid := [1]; tm_ip := ip;
     tm_config := 2; tm_entries := []; tm_status := st; tm_headerWritten := false |}.
