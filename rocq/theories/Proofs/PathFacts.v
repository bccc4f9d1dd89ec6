(** Paths stay below the destination directory. *)
From Coq Require Import Lia Bool.
From Verif Require Export Spec.PathSpec.
Import ListNotations.
Open Scope Z_scope.

(** Components, and where they lead. *)
Lemma components_cons s : exists x l, components s = x :: l.
Proof. induction s as [|c s (x & l & IH)]; cbn; [eauto|]. destruct (c =? SLASH); [eauto|]. rewrite IH. eauto. Qed.
Lemma components_slash a b : components (a ++ SLASH :: b) = components a ++ components b.
Proof.
  induction a as [|c a IH]; [reflexivity|]. cbn [app components]. rewrite IH. destruct (c =? SLASH); [reflexivity|].
  destruct (components_cons a) as (x & l & ->). reflexivity.
Qed.
Lemma cstr_app a b : ~ In 0 a -> cstr (a ++ b) = a ++ cstr b.
Proof.
  induction a as [|c a IH]; cbn [In app cstr]; intros H; [reflexivity|]. destruct (Z.eqb_spec c 0) as [->|]; [tauto|].
  rewrite IH by tauto. reflexivity.
Qed.
Lemma cstr_cut a b : In 0 a -> cstr (a ++ b) = cstr a.
Proof.
  induction a as [|c a IH]; cbn [In app cstr]; intros H; [tauto|]. destruct (Z.eqb_spec c 0) as [->|]; [reflexivity|].
  rewrite IH; [reflexivity|]. destruct H; [congruence|assumption].
Qed.
Lemma cstr_id a : ~ In 0 a -> cstr a = a.
Proof. intros H. rewrite <- (app_nil_r a) at 1. rewrite cstr_app by exact H. cbn. apply app_nil_r. Qed.
Lemma walk_app d a b : walk d (a ++ b) = walk (walk d a) b.
Proof. apply fold_left_app. Qed.
Lemma depth_app a b : depth (a ++ b) = depth a + depth b.
Proof. induction a as [|c a IH]; cbn [app depth fold_right] in *; [reflexivity|]. fold (depth (a ++ b)) (depth a). unfold depth in *. cbn. lia. Qed.
Definition shape (c : list Z) : Prop :=
  (c = [] /\ down1 c = 0) \/ (c = [46] /\ down1 c = 0) \/ (c = [46; 46] /\ down1 c = -1) \/
  (down1 c = 1 /\ forall d, enter d c = c :: d).
Lemma shapes c : shape c.
Proof.
  unfold shape. destruct c as [|a c]; [auto|].
  destruct (Z.eq_dec a 46) as [->|Ha].
  - destruct c as [|b c]; [auto|]. destruct (Z.eq_dec b 46) as [->|Hb].
    + destruct c as [|z c]; [auto 10|]. right. right. right. split; [reflexivity|]. reflexivity.
    + right. right. right. split.
      * cbn. destruct b as [|b|b]; try reflexivity. do 6 (destruct b; try reflexivity). tauto.
      * intros d. cbn. destruct b as [|b|b]; try reflexivity. do 6 (destruct b; try reflexivity). tauto.
  - right. right. right. split.
    + cbn. destruct a as [|a|a]; try reflexivity. do 6 (destruct a; try reflexivity). tauto.
    + intros d. cbn. destruct a as [|a|a]; try reflexivity. do 6 (destruct a; try reflexivity). tauto.
Qed.
Lemma walk_tame D : forall cs d, (forall n, 0 <= zlen d + depth (firstn n cs)) ->
  exists q, walk (d ++ D) cs = q ++ D /\ zlen q = zlen d + depth cs.
Proof.
  induction cs as [|c cs IH]; intros d H.
  - exists d. split; [reflexivity|]. cbn. lia.
  - assert (St : exists d', enter (d ++ D) c = d' ++ D /\ zlen d' = zlen d + down1 c).
    { pose proof (H 1%nat) as H1. cbn [firstn] in H1. unfold depth in H1. cbn [fold_right] in H1.
      destruct (shapes c) as [(-> & E)|[(-> & E)|[(-> & E)|(E & F)]]].
      - exists d. split; [reflexivity|lia].
      - exists d. split; [reflexivity|lia].
      - destruct d as [|x d]; [unfold zlen in *; cbn in *; lia|]. exists d. split; [reflexivity|]. unfold zlen in *. cbn [length down1] in *. lia.
      - exists (c :: d). split; [apply F|]. unfold zlen in *. cbn [length]. lia. }
    destruct St as (d' & E1 & E2). destruct (IH d') as (q & Q1 & Q2).
    + intros n. specialize (H (S n)). cbn [firstn] in H. unfold depth in *. cbn [fold_right] in H. lia.
    + exists q. unfold walk in *. cbn [fold_left]. rewrite E1. split; [exact Q1|]. unfold depth in *. cbn [fold_right]. lia.
Qed.

(** Paths below the root. *)
Lemma last_is_app s c : last_is c s = true -> exists r, s = r ++ [c].
Proof.
  unfold last_is. destruct (rev s) as [|x l] eqn:E; [discriminate|]. intros H. apply Z.eqb_eq in H. subst x.
  exists (rev l). rewrite <- (rev_involutive s), E. reflexivity.
Qed.
Lemma root_slash p : exists r, addTrailingSlash p = r ++ [SLASH].
Proof. unfold addTrailingSlash. destruct (last_is SLASH p) eqn:E; [exact (last_is_app _ _ E)|eauto]. Qed.
Lemma root_clean p : ~ In 0 p -> ~ In 0 (addTrailingSlash p).
Proof.
  intros H. unfold addTrailingSlash. destruct (last_is SLASH p); [exact H|]. rewrite in_app_iff. intros [A|[A|[]]]; [tauto|discriminate A].
Qed.
Lemma root_first p q : p <> [] -> first_is SLASH (addTrailingSlash p ++ q) = first_is SLASH p.
Proof. destruct p as [|c p]; [tauto|]. intros _. unfold addTrailingSlash. destruct (last_is SLASH (c :: p)); reflexivity. Qed.
Lemma resolve_full cwd o rel : fo_root o <> [] -> ~ In 0 (fo_root o) ->
  resolve cwd (getFullPath o rel) = walk (resolve cwd (fo_root o)) (components (cstr rel)).
Proof.
  intros H1 H2. unfold resolve, getFullPath. rewrite root_first by exact H1.
  rewrite cstr_app by (apply root_clean, H2). rewrite (cstr_id (fo_root o)) by exact H2.
  destruct (root_slash (fo_root o)) as (r & Er). rewrite Er, <- app_assoc. cbn [app]. rewrite components_slash, walk_app. f_equal.
  unfold addTrailingSlash in Er. destruct (last_is SLASH (fo_root o)) eqn:El.
  - rewrite Er, components_slash, walk_app. reflexivity.
  - apply app_inj_tail in Er. destruct Er as (-> & _). reflexivity.
Qed.
Lemma tame_below cwd o rel : fo_root o <> [] -> ~ In 0 (fo_root o) -> tame rel ->
  exists q, resolve cwd (getFullPath o rel) = q ++ resolve cwd (fo_root o) /\ zlen q = depth (components (cstr rel)).
Proof.
  intros H1 H2 T. rewrite resolve_full by assumption. destruct (walk_tame (resolve cwd (fo_root o)) (components (cstr rel)) []) as (q & Q1 & Q2).
  - intros n. cbn. apply T.
  - exists q. split; [exact Q1|]. cbn in Q2. exact Q2.
Qed.

(** The directories made are prefixes of the name. *)
Lemma drop_to_slash_app r : exists a, r = a ++ drop_to_slash r.
Proof.
  induction r as [|c r (a & IH)]; cbn; [exists []; reflexivity|]. destruct (c =? SLASH); [exists []; reflexivity|].
  exists (c :: a). cbn. congruence.
Qed.
Lemma drop_to_slash_head r : drop_to_slash r = [] \/ exists r', drop_to_slash r = SLASH :: r'.
Proof. induction r as [|c r IH]; cbn; [auto|]. destruct (Z.eqb_spec c SLASH) as [->|]; eauto. Qed.
Definition dirpart (dir rel : list Z) : Prop := exists d rest, dir = d ++ [SLASH] /\ rel = dir ++ rest.
Lemma dir_of_prefix s : dir_of s = [] \/ dirpart (dir_of s) s.
Proof.
  unfold dir_of. destruct (drop_to_slash_head (rev s)) as [E|(r' & E)]; [rewrite E; auto|]. right.
  destruct (drop_to_slash_app (rev s)) as (a & Ea). exists (rev r'), (rev a). split; [rewrite E; reflexivity|].
  rewrite <- rev_app_distr, <- Ea, rev_involutive. reflexivity.
Qed.
Lemma dirpart_parent dir rel : dirpart dir rel -> dir_of (removelast dir) = [] \/ dirpart (dir_of (removelast dir)) rel.
Proof.
  intros (d & rest & -> & ->). rewrite removelast_last. destruct (dir_of_prefix d) as [E|(d' & r' & E1 & E2)]; [auto|]. right.
  exists d', (r' ++ [SLASH] ++ rest). split; [exact E1|]. rewrite E2 at 1. rewrite <- !app_assoc. reflexivity.
Qed.
Lemma parent_shorter dir : dir <> [] -> (length (dir_of (removelast dir)) < length dir)%nat.
Proof.
  intros H. destruct (exists_last H) as (d & x & ->). rewrite removelast_last, app_length. cbn.
  destruct (dir_of_prefix d) as [->|(d' & r' & E1 & E2)]; [cbn; lia|].
  assert (length d = length (dir_of d ++ r')) by congruence. rewrite app_length in H0. lia.
Qed.
Lemma dirpart_tame dir rel : dirpart dir rel -> tame rel -> tame dir.
Proof.
  intros (d & rest & -> & ->) T n. destruct (in_dec Z.eq_dec 0 (d ++ [SLASH])) as [Hin|Hni].
  - specialize (T n). rewrite cstr_cut in T by exact Hin. exact T.
  - rewrite (cstr_id _ Hni). unfold tame in T. rewrite cstr_app in T by exact Hni. rewrite <- app_assoc in T. cbn [app] in T.
    rewrite components_slash in T. change (d ++ [SLASH]) with (d ++ SLASH :: []). rewrite components_slash. cbn [components].
    destruct (le_lt_dec n (length (components d))) as [L|L].
    + specialize (T n). rewrite firstn_app in *. replace (n - length (components d))%nat with 0%nat in * by lia. exact T.
    + specialize (T (length (components d))). rewrite firstn_app, Nat.sub_diag, firstn_O, app_nil_r, firstn_all in T.
      rewrite firstn_all2 by (rewrite app_length; cbn; lia). rewrite depth_app. cbn. lia.
Qed.

(** What the functions do. *)
Definition traced {A} (P : fcall -> Prop) (m : fm A) : Prop :=
  forall t x t', m t = Ret (x, t') -> exists l, t' = t ++ l /\ Forall P l.
Lemma traced_ret {A} P (x : A) : traced P (fret x).
Proof. intros t y t' [= <- <-]. exists []. rewrite app_nil_r. auto. Qed.
Lemma traced_crash {A} P : traced P (@fcrash A). Proof. intros t x t' H. discriminate H. Qed.
Lemma traced_bind {A B} P (m : fm A) (f : A -> fm B) : traced P m -> (forall x, traced P (f x)) -> traced P (fbind m f).
Proof.
  intros H1 H2 t y t' H. unfold fbind in H. destruct (m t) as [(x, t1)| |] eqn:E; try discriminate.
  destruct (H1 t x t1 E) as (l1 & -> & F1). destruct (H2 x _ _ _ H) as (l2 & -> & F2). exists (l1 ++ l2).
  rewrite app_assoc. split; [reflexivity|]. apply Forall_app. auto.
Qed.
Lemma traced_do (P : fcall -> Prop) e c : P c -> traced P (fdo e c).
Proof. intros H t x t' [= <- <-]. exists [c]. auto. Qed.
Section Calls.
Variables (o : fopts) (e : fenv) (rel : list Z) (P : fcall -> Prop).
Hypothesis Pdir : forall dir, dirpart dir rel -> P (FMkdir (getFullPath o dir)).
Hypothesis Popen : forall a b c, P (FOpen (getFullPath o rel) a b c).
Hypothesis Punlink : P (FUnlink (getFullPath o rel)).
Lemma traced_dirs fuel force : forall dir, dirpart dir rel -> traced P (createDirRecursively fuel o e force dir).
Proof.
  induction fuel as [|fuel IH]; intros dir Hd t x t' H; [discriminate H|]. cbn [createDirRecursively] in H.
  destruct (fo_skip_writes o); [injection H as <- <-; exists []; rewrite app_nil_r; auto|].
  destruct (negb force && fe_known e (length t) dir); [injection H as <- <-; exists []; rewrite app_nil_r; auto|].
  destruct (negb (last_is SLASH dir)); [discriminate|]. revert t x t' H. apply traced_bind.
  - destruct (dirpart_parent dir rel Hd) as [->|D]; [apply traced_ret|]. destruct (dir_of (removelast dir)); [apply traced_ret|]. apply IH, D.
  - intros ok. destruct (negb ok); [apply traced_ret|]. apply traced_bind; [apply traced_do, Pdir, Hd|]. intros code.
    destruct (_ && _ && _); apply traced_ret.
Qed.
Lemma traced_existing : traced P (openExistingFile o e rel).
Proof. unfold openExistingFile. destruct (negb _); [apply traced_crash|]. apply traced_bind; [apply traced_do, Popen|]. intros. apply traced_ret. Qed.
Lemma traced_create : traced P (createFile o e rel).
Proof.
  unfold createFile. destruct (negb _); [apply traced_crash|]. destruct (fo_skip_writes o); [apply traced_ret|].
  destruct (dir_of_prefix rel) as [->|D].
  - apply traced_bind; [apply traced_ret|]. intros ok. destruct (negb ok); [apply traced_ret|].
    apply traced_bind; [apply traced_do, Popen|]. intros res. destruct (res <? 0); apply traced_ret.
  - destruct (dir_of rel) as [|c d] eqn:Ed; [destruct D as (d & r & D & _); destruct d; discriminate D|].
    assert (M : forall force, traced P (create_dir o e force (c :: d))) by (intros; apply traced_dirs, D).
    apply traced_bind.
    + apply traced_bind; [apply M|]. intros ok. destruct ok; [apply traced_ret|apply M].
    + intros ok. destruct (negb ok); [apply traced_ret|]. apply traced_bind; [apply traced_do, Popen|]. intros res.
      destruct (res <? 0); [|apply traced_ret]. apply traced_bind; [apply M|]. intros ok'. destruct (negb ok'); [apply traced_ret|].
      apply traced_bind; [apply traced_do, Popen|]. intros res'. apply traced_ret.
Qed.
Lemma traced_receive seek st b : bd_fileName b = rel -> traced P (receive_open o e seek st b).
Proof.
  intros E. unfold receive_open. destruct (_ && _); [apply traced_ret|]. destruct (fo_skip_writes o); [apply traced_ret|].
  apply traced_bind.
  - unfold openForBlocks. rewrite E. destruct (bd_alloc b =? TO_BE_DELETED).
    + apply traced_bind; [apply traced_do, Punlink|]. intros. apply traced_ret.
    + destruct st; [|apply traced_existing|apply traced_ret]. destruct (bd_alloc b =? EXISTS_CORRECT_SIZE) eqn:Ec; [apply traced_existing|].
      unfold openAndSetSize. rewrite E, Ec. apply traced_bind.
      * destruct (bd_alloc b =? NOT_EXISTS); [apply traced_create|apply traced_existing].
      * intros fd. destruct (fd <? 0); [apply traced_ret|]. destruct (negb (fe_sized e)); [apply traced_ret|].
        destruct (fo_log_based o && _); [|apply traced_ret].
        destruct (bd_alloc b =? EXISTS_TOO_SMALL); [apply traced_ret|apply traced_crash].
  - intros fd. destruct (bd_alloc b =? TO_BE_DELETED); [apply traced_ret|]. destruct (_ && _ && _); [apply traced_ret|].
    destruct (fd =? -1); apply traced_ret.
Qed.
End Calls.

(** Every path is at the root or below. *)
Lemma confined cwd o e seek st b r calls : fo_root o <> [] -> ~ In 0 (fo_root o) -> tame (bd_fileName b) ->
  receive_open o e seek st b [] = Ret (r, calls) ->
  Forall (fun c => at_or_below (resolve cwd (fo_root o)) (resolve cwd (call_path c)) /\
                   (on_file c = true -> proper (bd_fileName b) -> strictly_below (resolve cwd (fo_root o)) (resolve cwd (call_path c)))) calls.
Proof.
  intros H1 H2 T H.
  assert (A : forall rel, tame rel -> at_or_below (resolve cwd (fo_root o)) (resolve cwd (getFullPath o rel))).
  { intros rel T'. destruct (tame_below cwd o rel H1 H2 T') as (q & E & _). exists q. exact E. }
  assert (S : proper (bd_fileName b) -> strictly_below (resolve cwd (fo_root o)) (resolve cwd (getFullPath o (bd_fileName b)))).
  { intros Pr. destruct (tame_below cwd o _ H1 H2 T) as (q & E1 & E2). exists q. split; [|exact E1]. intros ->. unfold proper in Pr. cbn in E2. lia. }
  set (P := fun c => _) in |- *.
  assert (Tr : traced P (receive_open o e seek st b)).
  { apply (traced_receive o e (bd_fileName b)); unfold P; cbn [call_path on_file]; auto.
    intros dir D. split; [|discriminate]. apply A. exact (dirpart_tame _ _ D T). }
  destruct (Tr [] r calls H) as (l & -> & F). exact F.
Qed.

(** A name with no component ".." is tame. *)
Lemma plain_tame name : ~ In [46; 46] (components (cstr name)) -> tame name.
Proof.
  intros H n. assert (H' : ~ In [46; 46] (firstn n (components (cstr name)))).
  { intros A. apply H. rewrite <- (firstn_skipn n). apply in_or_app. auto. }
  clear H. induction (firstn n (components (cstr name))) as [|c cs IH]; [cbn; lia|]. unfold depth in *. cbn [fold_right].
  cbn [In] in H'. assert (0 <= fold_right (fun c n => down1 c + n) 0 cs) by (apply IH; tauto).
  destruct (shapes c) as [(-> & E)|[(-> & E)|[(-> & E)|(E & _)]]]; try lia. tauto.
Qed.

(** When there is no crash. *)
Definition returns {A} (m : fm A) : Prop := forall t, exists x t', m t = Ret (x, t').
Lemma returns_ret {A} (x : A) : returns (fret x). Proof. intros t. unfold fret. eauto. Qed.
Lemma returns_do e c : returns (fdo e c). Proof. intros t. unfold fdo. eauto. Qed.
Lemma returns_bind {A B} (m : fm A) (f : A -> fm B) : returns m -> (forall x, returns (f x)) -> returns (fbind m f).
Proof. intros H1 H2 t. unfold fbind. destruct (H1 t) as (x & t' & ->). apply H2. Qed.
Lemma returns_dirs o e force : forall fuel dir rel, dirpart dir rel -> (length dir < fuel)%nat -> returns (createDirRecursively fuel o e force dir).
Proof.
  induction fuel as [|fuel IH]; intros dir rel D L t; [lia|]. cbn [createDirRecursively].
  destruct (fo_skip_writes o); [eauto|]. destruct (negb force && _); [eauto|].
  assert (E : last_is SLASH dir = true).
  { destruct D as (d & r & -> & _). unfold last_is. rewrite rev_app_distr. reflexivity. }
  rewrite E. cbn [negb]. revert t. apply returns_bind.
  - destruct (dirpart_parent dir rel D) as [->|D']; [apply returns_ret|]. destruct (dir_of (removelast dir)) eqn:Ed; [apply returns_ret|].
    rewrite <- Ed in *. apply (IH _ rel D'). assert (dir <> []) by (intros ->; discriminate E). pose proof (parent_shorter dir H). lia.
  - intros ok. destruct (negb ok); [apply returns_ret|]. apply returns_bind; [apply returns_do|]. intros code. destruct (_ && _ && _); apply returns_ret.
Qed.
Lemma returns_existing o e rel : name_ok rel = true -> returns (openExistingFile o e rel).
Proof. intros H. unfold openExistingFile. rewrite H. cbn [negb]. apply returns_bind; [apply returns_do|]. intros. apply returns_ret. Qed.
Lemma returns_create o e rel : name_ok rel = true -> returns (createFile o e rel).
Proof.
  intros H. unfold createFile. rewrite H. cbn [negb]. destruct (fo_skip_writes o); [apply returns_ret|].
  destruct (dir_of_prefix rel) as [->|D].
  - apply returns_bind; [apply returns_ret|]. intros ok. destruct (negb ok); [apply returns_ret|].
    apply returns_bind; [apply returns_do|]. intros res. destruct (res <? 0); apply returns_ret.
  - destruct (dir_of rel) as [|c d] eqn:Ed; [destruct D as (d & r & D & _); destruct d; discriminate D|].
    assert (M : forall force, returns (create_dir o e force (c :: d))) by (intros; eapply returns_dirs; [exact D|lia]).
    apply returns_bind.
    + apply returns_bind; [apply M|]. intros ok. destruct ok; [apply returns_ret|apply M].
    + intros ok. destruct (negb ok); [apply returns_ret|]. apply returns_bind; [apply returns_do|]. intros res.
      destruct (res <? 0); [|apply returns_ret]. apply returns_bind; [apply M|]. intros ok'. destruct (negb ok'); [apply returns_ret|].
      apply returns_bind; [apply returns_do|]. intros res'. apply returns_ret.
Qed.
Lemma no_crash_name o e seek st b : name_ok (bd_fileName b) = true -> 0 <= bd_alloc b <= 4 \/ fo_log_based o = false ->
  exists r calls, receive_open o e seek st b [] = Ret (r, calls).
Proof.
  intros H1 H2. cut (returns (receive_open o e seek st b)); [intros R; apply (R [])|].
  unfold receive_open. destruct (_ && _); [apply returns_ret|]. destruct (fo_skip_writes o); [apply returns_ret|].
  apply returns_bind.
  - unfold openForBlocks. destruct (Z.eqb_spec (bd_alloc b) TO_BE_DELETED) as [Ed|Ed].
    + apply returns_bind; [apply returns_do|]. intros. apply returns_ret.
    + destruct st; [|apply returns_existing, H1|apply returns_ret].
      destruct (Z.eqb_spec (bd_alloc b) EXISTS_CORRECT_SIZE) as [Ec|Ec]; [apply returns_existing, H1|].
      unfold openAndSetSize. apply returns_bind.
      * destruct (bd_alloc b =? NOT_EXISTS); [apply returns_create, H1|apply returns_existing, H1].
      * intros fd. destruct (fd <? 0); [apply returns_ret|]. destruct (bd_alloc b =? EXISTS_CORRECT_SIZE); [apply returns_ret|].
        destruct (negb (fe_sized e)); [apply returns_ret|].
        destruct (fo_log_based o) eqn:El; [|apply returns_ret]. cbn [andb].
        destruct (Z.eqb_spec (bd_alloc b) EXISTS_TOO_LARGE) as [E1|E1]; [apply returns_ret|].
        destruct (Z.eqb_spec (bd_alloc b) NOT_EXISTS) as [E2|E2]; [apply returns_ret|]. cbn [orb negb].
        destruct (Z.eqb_spec (bd_alloc b) EXISTS_TOO_SMALL) as [E3|E3]; [apply returns_ret|].
        destruct H2 as [H2|H2]; [|discriminate H2]. unfold TO_BE_DELETED, EXISTS_CORRECT_SIZE, EXISTS_TOO_LARGE, NOT_EXISTS, EXISTS_TOO_SMALL in *. lia.
  - intros fd. destruct (bd_alloc b =? TO_BE_DELETED); [apply returns_ret|]. destruct (_ && _ && _); [apply returns_ret|].
    destruct (fd =? -1); apply returns_ret.
Qed.
(** And when there is one. *)
Lemma crash_name o e seek st b : name_ok (bd_fileName b) = false -> bd_alloc b <> TO_BE_DELETED -> st <> SFailed ->
  fo_skip_writes o = false -> receive_open o e seek st b [] = Crash.
Proof.
  intros H1 H2 H3 H4. unfold receive_open. destruct (Z.eqb_spec (bd_alloc b) TO_BE_DELETED); [tauto|]. rewrite andb_false_r, H4.
  unfold openForBlocks, openAndSetSize, openExistingFile, createFile. rewrite H1. cbn [negb].
  destruct (Z.eqb_spec (bd_alloc b) TO_BE_DELETED); [tauto|]. destruct st; [|reflexivity|tauto].
  destruct (bd_alloc b =? EXISTS_CORRECT_SIZE); [reflexivity|]. destruct (bd_alloc b =? NOT_EXISTS); reflexivity.
Qed.
