From Coq Require Import ZArith List Bool Lia Arith.
From Verif.Model Require Import DirTree.
From Verif.Spec Require Import DirTreeSpec.
Import ListNotations.
Open Scope Z_scope.

Lemma path_eqb_eq p q : path_eqb p q = true <-> p = q.
Proof. unfold path_eqb. destruct (list_eq_dec _ p q); split; intros; auto; discriminate. Qed.
Lemma mem_in p l : mem p l = true <-> In p l.
Proof.
  unfold mem. rewrite existsb_exists. split.
  - intros [x [I E]]. apply path_eqb_eq in E. now subst.
  - intros I. exists p. split; auto. now apply path_eqb_eq.
Qed.
Lemma is_dir_in t p : is_dir t p = true <-> in_dirs t p.
Proof.
  unfold is_dir, in_dirs. destruct p.
  - split; auto.
  - rewrite mem_in. split; [auto|]. intros [E|E]; [discriminate|auto].
Qed.
Lemma is_file_in t p : is_file t p = true <-> In p (tr_files t).
Proof. apply mem_in. Qed.
Lemma parent_snoc p x : parent (p ++ [x]) = p.
Proof. unfold parent. apply removelast_last. Qed.
Lemma snoc_of (p : path) : p <> [] -> exists x, p = parent p ++ [x].
Proof. intros N. destruct (exists_last N) as [q [x ->]]. exists x. now rewrite parent_snoc. Qed.

Lemma nth_set_creator l i c j : (i < length l)%nat ->
  nth_error (set_creator l i c) j = if (j =? i)%nat then Some c else nth_error l j.
Proof.
  unfold set_creator. revert l j. induction i as [|i IH]; intros [|a l] j Hi; simpl in Hi; try lia.
  - destruct j; reflexivity.
  - destruct j; [reflexivity|]. cbn. apply (IH l j). lia.
Qed.

Lemma mkdir_some t p t' : mkdir t p = Some t' ->
  in_dirs t (parent p) /\ tr_files t' = tr_files t /\
  (t' = t /\ (in_dirs t p \/ In p (tr_files t)) \/
   tr_dirs t' = p :: tr_dirs t /\ ~ in_dirs t p /\ ~ In p (tr_files t)).
Proof.
  unfold mkdir. destruct (is_dir t (parent p)) eqn:D; [|discriminate]. cbn [negb].
  apply is_dir_in in D.
  destruct (is_dir t p) eqn:E; cbn [orb].
  - intros [= <-]. apply is_dir_in in E. auto 8.
  - destruct (is_file t p) eqn:F; cbn [orb]; intros [= <-].
    + apply is_file_in in F. auto 8.
    + split; auto. split; [reflexivity|]. right. split; [reflexivity|]. split.
      * intros I. apply is_dir_in in I. congruence.
      * intros I. apply is_file_in in I. congruence.
Qed.
Lemma mkdir_none t p : mkdir t p = None -> ~ in_dirs t (parent p).
Proof.
  unfold mkdir. destruct (is_dir t (parent p)) eqn:D; cbn [negb].
  - destruct (is_dir t p || is_file t p); discriminate.
  - intros _ I. apply is_dir_in in I. congruence.
Qed.
Lemma open_some excl t p t' : open_new excl t p = Some t' ->
  in_dirs t (parent p) /\ tr_dirs t' = tr_dirs t /\ ~ in_dirs t p /\
  (t' = t /\ In p (tr_files t) /\ excl = false \/ tr_files t' = p :: tr_files t /\ ~ In p (tr_files t)).
Proof.
  unfold open_new. destruct (is_dir t (parent p)) eqn:D; [|discriminate]. cbn [negb].
  apply is_dir_in in D.
  destruct (is_dir t p) eqn:E; [discriminate|].
  assert (N : ~ in_dirs t p) by (intros I; apply is_dir_in in I; congruence).
  destruct (is_file t p) eqn:F.
  - destruct excl; [discriminate|]. intros [= <-]. apply is_file_in in F. repeat (split; auto).
  - intros [= <-]. split; auto. split; [reflexivity|]. split; auto. right. split; [reflexivity|].
    intros I. apply is_file_in in I. congruence.
Qed.
Lemma open_none excl t p : open_new excl t p = None ->
  ~ in_dirs t (parent p) \/ in_dirs t p \/ In p (tr_files t) /\ excl = true.
Proof.
  unfold open_new. destruct (is_dir t (parent p)) eqn:D; cbn [negb].
  - destruct (is_dir t p) eqn:E.
    + apply is_dir_in in E. auto.
    + destruct (is_file t p) eqn:F; [|discriminate]. apply is_file_in in F.
      destruct excl; [auto|discriminate].
  - intros _. left. intros I. apply is_dir_in in I. congruence.
Qed.

(** What one step of a thread does to the tree. *)
Inductive grows (c : creator) (excl : bool) (t : tree) : fpc -> tree -> Prop :=
| G_same pc : pc <> POk -> grows c excl t pc t
| G_dir pc t' k : pc <> POk -> tr_files t' = tr_files t -> tr_dirs t' = firstn k (cr_dir c) :: tr_dirs t ->
    in_dirs t (parent (firstn k (cr_dir c))) -> ~ in_dirs t (firstn k (cr_dir c)) ->
    ~ In (firstn k (cr_dir c)) (tr_files t) -> grows c excl t pc t'
| G_file t' : tr_dirs t' = tr_dirs t -> tr_files t' = cr_path c :: tr_files t -> in_dirs t (cr_dir c) ->
    ~ in_dirs t (cr_path c) -> ~ In (cr_path c) (tr_files t) -> grows c excl t POk t'
| G_trunc : excl = false -> In (cr_path c) (tr_files t) -> grows c excl t POk t.

Lemma opens_not_ok pass : opens pass <> POk.
Proof. unfold opens. discriminate. Qed.
Lemma cstep_grows excl t known c t' k' pc : cstep excl t known c = Some (t', k', pc) -> grows c excl t pc t'.
Proof.
  unfold cstep. destruct (cr_pc c) as [k|pass k|pass k|again| |] eqn:P; try discriminate.
  - destruct (mem _ _).
    + intros [= <- <- <-]. apply G_same. destruct (_ =? _)%nat; [apply opens_not_ok|discriminate].
    + intros [= <- <- <-]. apply G_same. destruct k as [|[|k]]; discriminate.
  - destruct (mkdir t _) as [t1|] eqn:M.
    + intros [= <- <- <-]. destruct (mkdir_some _ _ _ M) as [A [B [[-> _]|[C [D E]]]]].
      * apply G_same. discriminate.
      * eapply G_dir; eauto. discriminate.
    + intros [= <- <- <-]. apply G_same. destruct pass; discriminate.
  - intros [= <- <- <-]. apply G_same. destruct (_ =? _)%nat; [apply opens_not_ok|discriminate].
  - destruct (open_new _ _ _) as [t1|] eqn:M.
    + intros [= <- <- <-]. destruct (open_some _ _ _ _ M) as [A [B [C [[-> [D E]]|[D E]]]]].
      * now apply G_trunc.
      * apply G_file; auto. unfold cr_path in A. now rewrite parent_snoc in A.
    + intros [= <- <- <-]. apply G_same. destruct (cr_dir c); [discriminate|]. destruct again; discriminate.
Qed.

(** ** What holds whatever happens *)
Definition base (excl : bool) (t0 : tree) (rs : list request) (s : dsys) : Prop :=
  sound_tree (ds_tree s) /\
  map (fun c => (cr_dir c, cr_name c)) (ds_threads s) = rs /\
  (forall i c, nth_error (ds_threads s) i = Some c -> cr_pc c = POk -> In (cr_path c) (tr_files (ds_tree s))) /\
  incl (tr_files t0) (tr_files (ds_tree s)) /\
  (forall p, In p (tr_files (ds_tree s)) ->
     In p (tr_files t0) \/ exists i c, nth_error (ds_threads s) i = Some c /\ cr_pc c = POk /\ cr_path c = p) /\
  (forall p, In p (tr_dirs (ds_tree s)) -> In p (tr_dirs t0) \/ exists r, In r rs /\ starts_with p (fst r)) /\
  (excl = true -> forall i j c d, nth_error (ds_threads s) i = Some c -> nth_error (ds_threads s) j = Some d ->
     cr_pc c = POk -> cr_path c = cr_path d -> cr_pc d = POk -> i = j) /\
  (excl = true -> forall i c, nth_error (ds_threads s) i = Some c -> cr_pc c = POk -> ~ In (cr_path c) (tr_files t0)).

Lemma starts_firstn k (p : path) : starts_with (firstn k p) p.
Proof. exists (skipn k p). now rewrite firstn_skipn. Qed.

Lemma grows_sound c excl t pc t' : grows c excl t pc t' -> sound_tree t -> sound_tree t'.
Proof.
  intros G [A [B [C [D E]]]]. destruct G as [pc' N|pc' t1 k N F1 D1 I1 I2 I3|t1 D1 F1 I1 I2 I3|X Y].
  - unfold sound_tree; auto.
  - assert (M : forall p, in_dirs t p -> in_dirs t1 p).
    { intros p [->|I]; [left; auto|right; rewrite D1; right; auto]. }
    split; [|split; [|split; [|split]]].
    + intros p x. rewrite D1. intros [Q|Q].
      * apply M. rewrite Q in I1. now rewrite parent_snoc in I1.
      * apply M. eapply A; eauto.
    + intros p x. rewrite F1. intros Q. apply M. eapply B; eauto.
    + intros p. rewrite D1, F1. intros [<-|Q]; auto.
    + rewrite D1. intros [Q|Q]; auto. apply I2. left. auto.
    + now rewrite F1.
  - assert (M : forall p, in_dirs t1 p <-> in_dirs t p) by (intros p; unfold in_dirs; rewrite D1; tauto).
    split; [|split; [|split; [|split]]].
    + intros p x. rewrite D1. intros Q. apply M. eapply A; eauto.
    + intros p x. rewrite F1. intros [Q|Q].
      * apply M. unfold cr_path in Q. apply app_inj_tail in Q. destruct Q as [<- _]. auto.
      * apply M. eapply B; eauto.
    + intros p. rewrite D1, F1. intros Q [R|R].
      * subst p. apply I2. right. auto.
      * eapply C; eauto.
    + now rewrite D1.
    + rewrite F1. intros [Q|Q]; auto. unfold cr_path in Q. destruct (cr_dir c); discriminate.
  - unfold sound_tree; auto.
Qed.

Lemma rmdir_sound t p : forallb (fun q => negb (path_eqb (parent q) p)) (tr_dirs t ++ tr_files t) = true ->
  sound_tree t -> sound_tree (rmdir t p).
Proof.
  intros F [A [B [C [D E]]]]. rewrite forallb_forall in F.
  assert (K : forall q x, In (q ++ [x]) (tr_dirs t ++ tr_files t) -> in_dirs t q -> in_dirs (rmdir t p) q).
  { intros q x I [->|J]; [left; auto|]. right. cbn. apply filter_In. split; auto.
    specialize (F _ I). rewrite parent_snoc in F. destruct (path_eqb p q) eqn:Q; auto.
    apply path_eqb_eq in Q. subst q. assert (path_eqb p p = true) by now apply path_eqb_eq. rewrite H in F. discriminate. }
  assert (L : forall q, In q (tr_dirs (rmdir t p)) -> In q (tr_dirs t)) by (intros q I; cbn in I; apply filter_In in I; tauto).
  split; [|split; [|split; [|split]]].
  - intros q x I. apply L in I. apply (K q x); [apply in_or_app; auto|eauto].
  - intros q x I. cbn in I. apply (K q x); [apply in_or_app; auto|eauto].
  - intros q I. apply L in I. cbn. auto.
  - intros I. apply L in I. auto.
  - auto.
Qed.

Definition moved (c : creator) (pc : fpc) : creator := {| cr_dir := cr_dir c; cr_name := cr_name c; cr_pc := pc |}.
Lemma map_set_creator (f : creator -> request) l i c d : nth_error l i = Some c -> f d = f c -> map f (set_creator l i d) = map f l.
Proof.
  unfold set_creator. revert i. induction l as [|a l IH]; intros [|i] N E; try discriminate.
  - cbn in *. injection N as ->. now rewrite E.
  - cbn in *. now rewrite IH.
Qed.

Lemma dstep_inv excl s i s' : dstep excl s (DStep i) = Some s' ->
  exists c t k pc, nth_error (ds_threads s) i = Some c /\ cstep excl (ds_tree s) (ds_known s) c = Some (t, k, pc) /\
    s' = {| ds_tree := t; ds_known := k; ds_threads := set_creator (ds_threads s) i (moved c pc) |}.
Proof.
  cbn. destruct (nth_error (ds_threads s) i) as [c|] eqn:N; [|discriminate].
  destruct (cstep _ _ _ c) as [[[t k] pc]|] eqn:C; [|discriminate].
  intros [= <-]. exists c, t, k, pc. auto.
Qed.
Lemma cstep_live excl t k c r : cstep excl t k c = Some r -> cr_pc c <> POk /\ cr_pc c <> PErr.
Proof. unfold cstep. destruct (cr_pc c); try discriminate; split; discriminate. Qed.

Lemma grows_files c excl t pc t' : grows c excl t pc t' -> incl (tr_files t) (tr_files t').
Proof. intros []; intros q I; auto; try (now rewrite H0); rewrite H0; right; auto. Qed.
Lemma grows_dirs c excl t pc t' : grows c excl t pc t' -> incl (tr_dirs t) (tr_dirs t').
Proof. intros []; intros q I; auto; try (now rewrite H). rewrite H1. right; auto. Qed.
Lemma grows_files_inv c excl t pc t' p : grows c excl t pc t' -> In p (tr_files t') ->
  In p (tr_files t) \/ pc = POk /\ p = cr_path c.
Proof.
  intros [] I; auto.
  - left. now rewrite <- H0.
  - rewrite H0 in I. destruct I as [<-|I]; auto.
Qed.
Lemma grows_dirs_inv c excl t pc t' p : grows c excl t pc t' -> In p (tr_dirs t') ->
  In p (tr_dirs t) \/ exists k, p = firstn k (cr_dir c).
Proof.
  intros [] I; auto.
  - rewrite H1 in I. destruct I as [<-|I]; eauto.
  - left. now rewrite <- H.
Qed.
Lemma grows_ok c excl t t' : grows c excl t POk t' -> In (cr_path c) (tr_files t').
Proof. intros G. inversion G; subst; try congruence. rewrite H0. left; auto. Qed.
Lemma grows_excl c t t' : grows c true t POk t' -> ~ In (cr_path c) (tr_files t).
Proof. intros G. inversion G; subst; congruence. Qed.

Lemma in_req s rs i c : map (fun c => (cr_dir c, cr_name c)) (ds_threads s) = rs -> nth_error (ds_threads s) i = Some c ->
  In (cr_dir c, cr_name c) rs.
Proof. intros <- N. apply in_map_iff. exists c. split; auto. eapply nth_error_In; eauto. Qed.

Lemma base_step excl t0 rs s e s' : base excl t0 rs s -> dstep excl s e = Some s' -> base excl t0 rs s'.
Proof.
  intros [S1 [S2 [S3 [S4 [S5 [S6 [S7 S8]]]]]]] E. destruct e as [i|p].
  - destruct (dstep_inv _ _ _ _ E) as [c [t [k [pc [N [C ->]]]]]]. clear E.
    pose proof (cstep_grows _ _ _ _ _ _ _ C) as G. destruct (cstep_live _ _ _ _ _ C) as [NOk _].
    assert (L : (i < length (ds_threads s))%nat) by (apply nth_error_Some; congruence).
    pose proof (in_req _ _ _ _ S2 N) as R.
    unfold base; cbn [ds_tree ds_threads ds_known].
    split; [|split; [|split; [|split; [|split; [|split; [|split]]]]]].
    + eapply grows_sound; eauto.
    + rewrite <- S2. eapply map_set_creator; eauto.
    + intros j d. rewrite nth_set_creator by auto. destruct (j =? i)%nat.
      * intros [= <-]. cbn. intros ->. change (cr_path (moved c POk)) with (cr_path c). eapply grows_ok; eauto.
      * intros M P. eapply grows_files; eauto.
    + intros q I. eapply grows_files; eauto.
    + intros q I. destruct (grows_files_inv _ _ _ _ _ _ G I) as [J|[-> ->]].
      * destruct (S5 q J) as [K|[j [d [M [P Q]]]]]; auto. right. exists j, d. rewrite nth_set_creator by auto.
        destruct (Nat.eqb_spec j i); [subst; congruence|auto].
      * right. exists i, (moved c POk). rewrite nth_set_creator by auto. rewrite Nat.eqb_refl. auto.
    + intros q I. destruct (grows_dirs_inv _ _ _ _ _ _ G I) as [J|[n ->]]; auto.
      right. eexists. split; [exact R|]. apply starts_firstn.
    + intros X j1 j2 c1 c2. rewrite !nth_set_creator by auto.
      destruct (Nat.eqb_spec j1 i), (Nat.eqb_spec j2 i); subst; auto.
      * intros [= <-] M P Q P2. cbn in P. subst pc. exfalso.
        apply (grows_excl _ _ _ G). change (cr_path (moved c POk)) with (cr_path c) in Q. rewrite Q. eauto.
      * intros M [= <-] P Q P2. cbn in P2. subst pc. exfalso.
        apply (grows_excl _ _ _ G). change (cr_path (moved c POk)) with (cr_path c) in Q. rewrite <- Q. eauto.
      * intros M1 M2 P1 Q P2. eapply S7; eauto.
    + intros X j d. rewrite nth_set_creator by auto. subst excl. destruct (j =? i)%nat.
      * intros [= <-]. cbn. intros ->. intros I. apply (grows_excl _ _ _ G). apply S4. exact I.
      * intros M P. eapply S8; eauto.
  - cbn in E. destruct (forallb _ _) eqn:F; [|discriminate]. injection E as <-.
    unfold base; cbn [ds_tree ds_threads ds_known].
    split; [apply rmdir_sound; auto|]. repeat (split; [assumption|]). split; [|split; assumption].
    intros q I. apply S6. cbn in I. apply filter_In in I. tauto.
Qed.

Lemma creator_new_live d n : cr_pc (creator_new d n) <> POk /\ cr_pc (creator_new d n) <> PErr.
Proof. destruct d; cbn; split; discriminate. Qed.
Lemma start_thread t k rs i c : nth_error (ds_threads (dstart t k rs)) i = Some c ->
  exists r, nth_error rs i = Some r /\ c = creator_new (fst r) (snd r).
Proof.
  cbn [dstart ds_threads]. rewrite nth_error_map. destruct (nth_error rs i) as [r|]; cbn [option_map].
  - intros [= <-]. eauto.
  - discriminate.
Qed.
Lemma base_start excl t k rs : sound_tree t -> base excl t rs (dstart t k rs).
Proof.
  intros S0. split; [auto|].
  assert (NO : forall i c, nth_error (ds_threads (dstart t k rs)) i = Some c -> cr_pc c = POk -> False).
  { intros i c N P. apply start_thread in N. destruct N as [r [_ ->]]. destruct (creator_new_live (fst r) (snd r)) as [X _]. exact (X P). }
  split; [|split; [|split; [|split; [|split; [|split]]]]].
  - cbn. rewrite map_map. cbn. rewrite <- (map_id rs) at 2. apply map_ext. now intros [].
  - intros. exfalso; eauto.
  - intros q; auto.
  - auto.
  - auto.
  - intros. exfalso; eauto.
  - intros. exfalso; eauto.
Qed.
Lemma base_run excl t0 rs l : forall s s', base excl t0 rs s -> drun excl s l = Some s' -> base excl t0 rs s'.
Proof.
  induction l as [|e l IH]; intros s s' B R; cbn in R.
  - now injection R as <-.
  - destruct (dstep excl s e) as [s1|] eqn:E; [|discriminate]. apply (IH s1 s'); [|exact R]. exact (base_step _ _ _ _ _ _ B E).
Qed.
Lemma base_of excl t k rs l s : sound_tree t -> drun excl (dstart t k rs) l = Some s -> base excl t rs s.
Proof. intros S0 R. exact (base_run _ _ _ _ _ _ (base_start excl t k rs S0) R). Qed.

Lemma thread_req excl t0 rs s i r pc : base excl t0 rs s -> nth_error rs i = Some r -> thread_at s i pc ->
  exists c, nth_error (ds_threads s) i = Some c /\ cr_pc c = pc /\ cr_dir c = fst r /\ cr_path c = target r.
Proof.
  intros [_ [M _]] N [c [T P]]. exists c. split; auto. split; auto.
  rewrite <- M, nth_error_map, T in N. injection N as <-. auto.
Qed.
Lemma sound_up t : sound_tree t -> forall q p, in_dirs t (p ++ q) -> in_dirs t p.
Proof.
  intros [A _]. induction q as [|x q IH] using rev_ind; intros p I.
  - now rewrite app_nil_r in I.
  - apply IH. rewrite app_assoc in I. destruct I as [I|I].
    + destruct (p ++ q); discriminate.
    + eauto.
Qed.

Lemma made_all excl t known rs l s i r : sound_tree t -> drun excl (dstart t known rs) l = Some s ->
  nth_error rs i = Some r -> thread_at s i POk ->
  In (target r) (tr_files (ds_tree s)) /\ (forall p, starts_with p (fst r) -> in_dirs (ds_tree s) p).
Proof.
  intros S0 R N T. pose proof (base_of _ _ _ _ _ _ S0 R) as B.
  destruct (thread_req _ _ _ _ _ _ _ B N T) as [c [M [P [D E]]]].
  destruct B as [S1 [_ [S3 _]]]. split.
  - rewrite <- E. eauto.
  - intros p [q Q]. apply (sound_up _ S1 q). rewrite <- Q.
    destruct S1 as [_ [S1 _]]. apply (S1 (fst r) (snd r)). change (fst r ++ [snd r]) with (target r). rewrite <- E. eauto.
Qed.
Lemma only_all excl t known rs l s : sound_tree t -> drun excl (dstart t known rs) l = Some s ->
  sound_tree (ds_tree s) /\
  (forall p, In p (tr_files (ds_tree s)) <-> In p (tr_files t) \/
     exists i r, nth_error rs i = Some r /\ thread_at s i POk /\ p = target r) /\
  (forall p, In p (tr_dirs (ds_tree s)) -> In p (tr_dirs t) \/ exists r, In r rs /\ starts_with p (fst r)).
Proof.
  intros S0 R. pose proof (base_of _ _ _ _ _ _ S0 R) as B. split; [apply B|].
  destruct B as [S1 [S2 [S3 [S4 [S5 [S6 _]]]]]]. split; [|auto].
  intros p. split.
  - intros I. destruct (S5 p I) as [J|[i [c [N [P Q]]]]]; auto. right.
    exists i, (cr_dir c, cr_name c). split; [|split].
    + rewrite <- S2, nth_error_map, N. reflexivity.
    + exists c. auto.
    + now rewrite <- Q.
  - intros [I|[i [r [N [[c [M P]] ->]]]]]; [auto|].
    rewrite <- S2, nth_error_map, M in N. injection N as <-. apply (S3 i c); auto.
Qed.
Lemma in_way_all excl t known rs l s i r p : sound_tree t -> drun excl (dstart t known rs) l = Some s ->
  nth_error rs i = Some r -> starts_with p (fst r) -> In p (tr_files t) -> ~ thread_at s i POk.
Proof.
  intros S0 R N P F T. destruct (made_all _ _ _ _ _ _ _ _ S0 R N T) as [_ D].
  pose proof (base_of _ _ _ _ _ _ S0 R) as [[_ [_ [X [_ Y]]]] [_ [_ [I _]]]].
  destruct (D p P) as [->|Q]; [apply Y; auto|]. apply (X p Q). auto.
Qed.
Lemma excl_all t known rs l s : sound_tree t -> drun true (dstart t known rs) l = Some s ->
  (forall i r, nth_error rs i = Some r -> thread_at s i POk -> ~ In (target r) (tr_files t)) /\
  (forall i j r q, nth_error rs i = Some r -> nth_error rs j = Some q -> thread_at s i POk -> thread_at s j POk ->
     target r = target q -> i = j).
Proof.
  intros S0 R. pose proof (base_of _ _ _ _ _ _ S0 R) as B. split.
  - intros i r N T. destruct (thread_req _ _ _ _ _ _ _ B N T) as [c [M [P [D E]]]].
    destruct B as [_ [_ [_ [_ [_ [_ [_ S8]]]]]]]. rewrite <- E. eauto.
  - intros i j r q N1 N2 T1 T2 E. destruct (thread_req _ _ _ _ _ _ _ B N1 T1) as [c [M1 [P1 [_ E1]]]].
    destruct (thread_req _ _ _ _ _ _ _ B N2 T2) as [d [M2 [P2 [_ E2]]]].
    destruct B as [_ [_ [_ [_ [_ [_ [S7 _]]]]]]]. apply (S7 eq_refl i j c d); auto; congruence.
Qed.

(** ** If nobody removes directories *)
Definition reached (t : tree) (c : creator) (k : nat) : Prop := forall j, (j < k)%nat -> in_dirs t (firstn j (cr_dir c)).
Definition place (t : tree) (c : creator) : Prop :=
  let n := length (cr_dir c) in
  match cr_pc c with
  | PCheck k => (1 <= k <= n)%nat
  | PMk pass k => (1 <= k <= n)%nat /\ (pass <= 2)%nat /\ (pass <> 0%nat -> reached t c k)
  | PIns pass k => (1 <= k <= n)%nat /\ (pass <= 2)%nat /\ (pass <> 0%nat -> reached t c (S k))
  | POpen again => again = true -> reached t c (S n)
  | POk => True
  | PErr => False
  end.
Definition grown (excl : bool) (t0 : tree) (rs : list request) (s : dsys) : Prop :=
  base excl t0 rs s /\ incl (tr_dirs t0) (tr_dirs (ds_tree s)) /\
  (forall i c, nth_error (ds_threads s) i = Some c -> place (ds_tree s) c).

Lemma reached_more t t' c k : incl (tr_dirs t) (tr_dirs t') -> reached t c k -> reached t' c k.
Proof. intros I R j L. destruct (R j L) as [E|E]; [left|right]; auto. Qed.
Lemma place_more t t' c : incl (tr_dirs t) (tr_dirs t') -> place t c -> place t' c.
Proof.
  intros I. unfold place. destruct (cr_pc c); auto; intuition eauto using reached_more.
Qed.
Lemma reached_moved t c pc k : reached t c k -> reached t (moved c pc) k.
Proof. auto. Qed.

Lemma base_no_file excl t0 rs s i c k : base excl t0 rs s -> no_clash excl t0 rs -> nth_error (ds_threads s) i = Some c ->
  ~ In (firstn k (cr_dir c)) (tr_files (ds_tree s)).
Proof.
  intros [S1 [S2 [S3 [S4 [S5 _]]]]] [N1 _] N I.
  pose proof (in_req _ _ _ _ S2 N) as R.
  destruct (N1 _ (firstn k (cr_dir c)) R (starts_firstn _ _)) as [A B].
  destruct (S5 _ I) as [J|[j [d [M [P Q]]]]]; auto.
  apply (B _ (in_req _ _ _ _ S2 M)). exact Q.
Qed.
Lemma parent_firstn k (p : path) : (1 <= k <= length p)%nat -> parent (firstn k p) = firstn (k - 1) p.
Proof.
  intros L. unfold parent. replace k with (S (k - 1)) at 1 by lia. apply removelast_firstn. lia.
Qed.
Lemma nodup_at {A} (f : A -> path) l i j a b : NoDup (map f l) -> nth_error l i = Some a -> nth_error l j = Some b -> f a = f b -> i = j.
Proof.
  intros ND N1 N2 E. rewrite NoDup_nth_error in ND. apply ND.
  - rewrite map_length. apply nth_error_Some. congruence.
  - rewrite !nth_error_map, N1, N2. cbn. now rewrite E.
Qed.

Lemma open_fails excl t0 rs s i c : base excl t0 rs s -> no_clash excl t0 rs -> nth_error (ds_threads s) i = Some c ->
  cr_pc c <> POk -> open_new excl (ds_tree s) (cr_path c) = None -> ~ in_dirs (ds_tree s) (cr_dir c).
Proof.
  intros [S1 [S2 [S3 [S4 [S5 [S6 [S7 S8]]]]]]] [N1 [N2 N3]] N NOk O.
  pose proof (in_req _ _ _ _ S2 N) as R.
  destruct (open_none _ _ _ O) as [A|[A|[A X]]].
  - unfold cr_path in A. now rewrite parent_snoc in A.
  - exfalso. destruct A as [A|A].
    + unfold cr_path in A. destruct (cr_dir c); discriminate.
    + destruct (S6 _ A) as [B|[r [I P]]].
      * apply (N2 _ R). exact B.
      * destruct (N1 _ _ I P) as [_ Q]. apply (Q _ R). reflexivity.
  - exfalso. destruct (N3 X) as [ND NF]. destruct (S5 _ A) as [B|[j [d [M [P Q]]]]].
    + apply (NF _ R). exact B.
    + assert (j = i); [|subst; congruence].
      rewrite <- S2 in ND. rewrite map_map in ND.
      eapply (nodup_at _ _ _ _ _ _ ND M N). exact Q.
Qed.

Lemma grown_step excl t0 rs s i s' : no_clash excl t0 rs -> grown excl t0 rs s -> dstep excl s (DStep i) = Some s' -> grown excl t0 rs s'.
Proof.
  intros NC [B [I0 P]] E. pose proof (base_step _ _ _ _ _ _ B E) as B'.
  destruct (dstep_inv _ _ _ _ E) as [c [t [k [pc [N [C ->]]]]]]. clear E.
  pose proof (cstep_grows _ _ _ _ _ _ _ C) as G. pose proof (grows_dirs _ _ _ _ _ G) as GD.
  assert (L : (i < length (ds_threads s))%nat) by (apply nth_error_Some; congruence).
  split; [exact B'|]. cbn [ds_tree ds_threads]. split; [intros q I; auto|].
  intros j d. rewrite nth_set_creator by auto. destruct (j =? i)%nat.
  2:{ intros M. apply (place_more (ds_tree s)); eauto. }
  intros [= <-]. pose proof (P i c N) as Q. destruct (cstep_live _ _ _ _ _ C) as [NOk _].
  unfold cstep in C. unfold place in Q.
  destruct (cr_pc c) as [m|pass m|pass m|again| |] eqn:PC; try discriminate.
  - destruct (mem _ _).
    + injection C as <- <- <-. destruct (Nat.eqb_spec m (length (cr_dir c))); cbn; [discriminate|].
      split; [lia|]. split; [lia|]. intros X; congruence.
    + injection C as <- <- <-. destruct m as [|[|m]]; cbn; try lia; (split; [lia|split; [lia|congruence]]).
  - destruct Q as [Q1 [Q2 Q3]]. destruct (mkdir (ds_tree s) _) as [t1|] eqn:M.
    + injection C as <- <- <-. cbn. split; [lia|]. split; [lia|]. intros X. specialize (Q3 X).
      intros n Ln. destruct (Nat.eq_dec n m) as [->|].
      * destruct (mkdir_some _ _ _ M) as [_ [_ [[-> [D|D]]|[D _]]]]; auto.
        -- exfalso. exact (base_no_file excl t0 rs s i c m B NC N D).
        -- right. cbn. rewrite D. left; auto.
      * apply (reached_more (ds_tree s) t1 c m GD Q3). lia.
    + injection C as <- <- <-. destruct pass as [|pass].
      * cbn. split; [lia|]. split; [lia|]. intros _ n Ln. replace n with 0%nat by lia. left. reflexivity.
      * exfalso. apply (mkdir_none _ _ M). rewrite parent_firstn by auto. apply Q3; [discriminate|lia].
  - destruct Q as [Q1 [Q2 Q3]]. injection C as <- <- <-. destruct (Nat.eqb_spec m (length (cr_dir c))) as [->|].
    + unfold place. cbn. destruct pass as [|[|[|pass]]]; try discriminate; try lia. intros _. apply Q3. discriminate.
    + cbn. split; [lia|]. split; [lia|]. auto.
  - destruct (open_new _ _ _) as [t1|] eqn:O.
    + injection C as <- <- <-. exact Logic.I.
    + injection C as <- <- <-.
      assert (F : ~ in_dirs (ds_tree s) (cr_dir c)) by (apply (open_fails excl t0 rs s i c B NC N); congruence).
      destruct (cr_dir c) as [|x r] eqn:D; [exfalso; apply F; left; auto|].
      destruct again.
      * exfalso. apply F. specialize (Q eq_refl (length (x :: r))). rewrite D in Q. rewrite firstn_all in Q. apply Q. lia.
      * unfold place. cbn. rewrite D. cbn. split; [lia|]. split; [lia|]. intros _ n Ln. replace n with 0%nat by lia. left. reflexivity.
Qed.
Lemma grown_start excl t k rs : sound_tree t -> grown excl t rs (dstart t k rs).
Proof.
  intros S0. split; [now apply base_start|]. split; [intros q; auto|].
  intros i c N. apply start_thread in N. destruct N as [[d n] [_ ->]]. unfold place. destruct d; cbn; [discriminate|lia].
Qed.
Lemma grown_run excl t0 rs l : no_clash excl t0 rs -> forall s s', grown excl t0 rs s -> drun excl s (map DStep l) = Some s' -> grown excl t0 rs s'.
Proof.
  intros NC. induction l as [|e l IH]; intros s s' B R; cbn [map drun] in R.
  - now injection R as <-.
  - destruct (dstep excl s (DStep e)) as [s1|] eqn:E; [|discriminate]. apply (IH s1 s'); [|exact R]. exact (grown_step _ _ _ _ _ _ NC B E).
Qed.

Lemma never_fails_all excl t known rs l s i : sound_tree t -> no_clash excl t rs ->
  drun excl (dstart t known rs) (map DStep l) = Some s -> ~ thread_at s i PErr.
Proof.
  intros S0 NC R [c [N P]]. pose proof (grown_run _ _ _ _ NC _ _ (grown_start excl t known rs S0) R) as [_ [_ Q]].
  specialize (Q i c N). unfold place in Q. now rewrite P in Q.
Qed.
Lemma all_made_all excl t known rs l s : sound_tree t -> no_clash excl t rs ->
  drun excl (dstart t known rs) (map DStep l) = Some s -> at_rest excl s ->
  forall i r, nth_error rs i = Some r -> thread_at s i POk /\ In (target r) (tr_files (ds_tree s)).
Proof.
  intros S0 NC R AR i r N. pose proof (base_of _ _ _ _ _ _ S0 R) as B.
  assert (E : exists c, nth_error (ds_threads s) i = Some c).
  { destruct B as [_ [M _]]. rewrite <- M, nth_error_map in N. destruct (nth_error (ds_threads s) i); [eauto|discriminate]. }
  destruct E as [c E].
  assert (T : thread_at s i POk).
  { exists c. split; auto. specialize (AR i). cbn in AR. rewrite E in AR.
    destruct (cstep excl (ds_tree s) (ds_known s) c) as [[[? ?] ?]|] eqn:C; [discriminate|].
    assert (X : ~ thread_at s i PErr) by (eapply never_fails_all; eauto).
    unfold cstep in C. destruct (cr_pc c) eqn:P; auto; exfalso.
    - destruct (mem _ _); discriminate.
    - destruct (mkdir _ _); discriminate.
    - discriminate.
    - destruct (open_new _ _ _); discriminate.
    - apply X. exists c; auto. }
  split; auto. now apply (made_all _ _ _ _ _ _ _ _ S0 R N T).
Qed.

(** ** Every run ends *)
Definition left_of (c : creator) : nat :=
  let n := length (cr_dir c) in
  match cr_pc c with
  | PCheck k => 6 * n + 2 + k
  | PMk O k => 4 * n + 2 + 2 * (n - k) + 2
  | PIns O k => 4 * n + 2 + 2 * (n - k) + 1
  | PMk 1 k => 2 * n + 2 + 2 * (n - k) + 2
  | PIns 1 k => 2 * n + 2 + 2 * (n - k) + 1
  | PMk _ k => 2 * (n - k) + 3
  | PIns _ k => 2 * (n - k) + 2
  | POpen false => 2 * n + 2
  | POpen true => 1
  | POk | PErr => 0
  end%nat.
Definition ranged (c : creator) : Prop :=
  let n := length (cr_dir c) in
  match cr_pc c with
  | PCheck k => (1 <= k <= n)%nat
  | PMk pass k | PIns pass k => (1 <= k <= n)%nat /\ (pass <= 2)%nat
  | _ => True
  end.
Lemma cstep_left excl t k c t' k' pc : ranged c -> cstep excl t k c = Some (t', k', pc) ->
  ranged (moved c pc) /\ (left_of (moved c pc) < left_of c)%nat.
Proof.
  unfold ranged, cstep, left_of. destruct (cr_pc c) as [m|pass m|pass m|again| |]; intros Q C; try discriminate.
  - destruct (mem _ _); injection C as <- <- <-.
    + destruct (Nat.eqb_spec m (length (cr_dir c))); cbn; lia.
    + destruct m as [|[|m]]; cbn; lia.
  - destruct (mkdir _ _); injection C as <- <- <-.
    + cbn. destruct pass as [|[|[|pass]]]; lia.
    + destruct pass as [|[|[|pass]]]; cbn; lia.
  - injection C as <- <- <-. destruct (Nat.eqb_spec m (length (cr_dir c))) as [->|];
      destruct pass as [|[|[|pass]]]; cbn; lia.
  - destruct (open_new _ _ _); injection C as <- <- <-.
    + cbn. destruct again; lia.
    + destruct (cr_dir c) eqn:D; cbn; rewrite ?D; cbn; destruct again; cbn; rewrite ?D; cbn; lia.
Qed.
Definition left_all (s : dsys) : nat := list_sum (map left_of (ds_threads s)).
Lemma left_set l i c d : nth_error l i = Some c ->
  (list_sum (map left_of (set_creator l i d)) + left_of c = list_sum (map left_of l) + left_of d)%nat.
Proof.
  unfold set_creator. revert i. induction l as [|a l IH]; intros [|i] N; try discriminate.
  - cbn [nth_error] in N. injection N as ->. cbn [firstn skipn app map].
    change (list_sum (left_of d :: map left_of l)) with (left_of d + list_sum (map left_of l))%nat.
    change (list_sum (left_of c :: map left_of l)) with (left_of c + list_sum (map left_of l))%nat. lia.
  - specialize (IH i N). cbn [firstn app map].
    change (skipn (S (S i)) (a :: l)) with (skipn (S i) l).
    change (list_sum (left_of a :: map left_of l)) with (left_of a + list_sum (map left_of l))%nat.
    match goal with |- (list_sum (left_of a :: ?x) + _ = _)%nat => change (list_sum (left_of a :: x)) with (left_of a + list_sum x)%nat end.
    lia.
Qed.
Lemma ends_run excl l : forall s s', Forall ranged (ds_threads s) -> drun excl s l = Some s' ->
  (steps l + left_all s' <= left_all s)%nat.
Proof.
  induction l as [|e l IH]; intros s s' F R; cbn [drun] in R.
  - injection R as <-. cbn. lia.
  - destruct (dstep excl s e) as [s1|] eqn:E; [|discriminate]. destruct e as [i|p].
    + destruct (dstep_inv _ _ _ _ E) as [c [t [k [pc [N [C ->]]]]]].
      assert (RC : ranged c) by (rewrite Forall_forall in F; apply F; eapply nth_error_In; eauto).
      destruct (cstep_left _ _ _ _ _ _ _ RC C) as [RM LM].
      assert (FA : Forall ranged (set_creator (ds_threads s) i (moved c pc))).
      { unfold set_creator. apply Forall_forall. intros x I. rewrite Forall_forall in F.
        apply in_app_or in I. destruct I as [I|[<-|I]]; auto.
        - apply F. rewrite <- (firstn_skipn i). apply in_or_app; auto.
        - apply F. rewrite <- (firstn_skipn (S i)). apply in_or_app; auto. }
      specialize (IH {| ds_tree := t; ds_known := k; ds_threads := set_creator (ds_threads s) i (moved c pc) |} s' FA R).
      unfold left_all in *. cbn [ds_threads] in *. pose proof (left_set _ _ _ (moved c pc) N). cbn. unfold steps in IH. lia.
    + cbn in E. destruct (forallb _ _); [|discriminate]. injection E as <-.
      specialize (IH {| ds_tree := rmdir (ds_tree s) p; ds_known := ds_known s; ds_threads := ds_threads s |} s' F R). exact IH.
Qed.
Lemma ends_all excl t known rs l s : drun excl (dstart t known rs) l = Some s ->
  (steps l <= list_sum (map steps_of rs))%nat.
Proof.
  intros R. apply ends_run in R.
  - assert (left_all (dstart t known rs) <= list_sum (map steps_of rs))%nat; [|lia].
    unfold left_all, dstart. cbn [ds_threads]. rewrite map_map. clear. induction rs as [|r rs IH]; [apply le_n|].
    assert (left_of (creator_new (fst r) (snd r)) <= steps_of r)%nat.
    { unfold left_of, steps_of, creator_new. destruct r as [[|x d] n]; cbn; lia. }
    cbn [map]. match goal with |- (list_sum (?x :: ?y) <= list_sum (?z :: ?w))%nat =>
      change (list_sum (x :: y)) with (x + list_sum y)%nat; change (list_sum (z :: w)) with (z + list_sum w)%nat end. lia.
  - cbn. apply Forall_forall. intros c I. apply in_map_iff in I. destruct I as [[d n] [<- _]].
    unfold ranged, creator_new. destruct d; cbn; auto. lia.
Qed.

(** ** createdDirs_ *)
Lemma known_run excl t0 rs l : no_clash excl t0 rs -> forall s s', grown excl t0 rs s ->
  (forall p, In p (ds_known s) -> in_dirs (ds_tree s) p) ->
  (forall i c pass k, nth_error (ds_threads s) i = Some c -> cr_pc c = PIns pass k -> in_dirs (ds_tree s) (firstn k (cr_dir c))) ->
  drun excl s (map DStep l) = Some s' -> forall p, In p (ds_known s') -> in_dirs (ds_tree s') p.
Proof.
  intros NC. induction l as [|i l IH]; intros s s' G K P R; cbn [map drun] in R.
  - now injection R as <-.
  - destruct (dstep excl s (DStep i)) as [s1|] eqn:E; [|discriminate].
    pose proof (grown_step _ _ _ _ _ _ NC G E) as G'.
    apply (IH s1 s' G'); auto; clear IH R.
    + destruct (dstep_inv _ _ _ _ E) as [c [t [k [pc [N [C ->]]]]]]. cbn [ds_tree ds_known].
      pose proof (grows_dirs _ _ _ _ _ (cstep_grows _ _ _ _ _ _ _ C)) as GD.
      assert (M : forall q, in_dirs (ds_tree s) q -> in_dirs t q) by (intros q [->|J]; [left|right]; auto).
      unfold cstep in C. destruct (cr_pc c) as [m|pass m|pass m|again| |] eqn:PC; try discriminate.
      * destruct (mem _ _); injection C as <- <- <-; auto.
      * destruct (mkdir _ _); injection C as <- <- <-; auto.
      * injection C as <- <- <-. intros p [<-|J]; auto. eapply P; eauto.
      * destruct (open_new _ _ _); injection C as <- <- <-; auto.
    + destruct (dstep_inv _ _ _ _ E) as [c [t [k [pc [N [C ->]]]]]]. cbn [ds_tree ds_threads].
      pose proof (grows_dirs _ _ _ _ _ (cstep_grows _ _ _ _ _ _ _ C)) as GD.
      assert (L : (i < length (ds_threads s))%nat) by (apply nth_error_Some; congruence).
      assert (M : forall q, in_dirs (ds_tree s) q -> in_dirs t q) by (intros q [->|J]; [left|right]; auto).
      intros j d pass m. rewrite nth_set_creator by auto. destruct (j =? i)%nat; [|intros; apply M; eauto].
      intros [= <-]. cbn. intros ->. unfold cstep in C. destruct (cr_pc c) as [m'|pass' m'|pass' m'|again| |]; try discriminate.
      * destruct (mem _ _); injection C as _ _ C; [destruct (_ =? _)%nat|destruct m' as [|[|]]]; discriminate.
      * destruct (mkdir (ds_tree s) _) as [t1|] eqn:MK.
        -- injection C as <- _ E1 E2. subst pass' m'. destruct (mkdir_some _ _ _ MK) as [_ [_ [[-> [D|D]]|[D _]]]]; auto.
           ++ exfalso. exact (base_no_file excl t0 rs s i c _ (proj1 G) NC N D).
           ++ right. rewrite D. left; auto.
        -- injection C as _ _ C. destruct pass'; discriminate.
      * injection C as _ _ C. destruct (_ =? _)%nat; discriminate.
      * destruct (open_new _ _ _); injection C as _ _ C; [discriminate|].
        destruct (cr_dir c); [discriminate|destruct again; discriminate].
Qed.
Lemma known_all excl t known rs l s p : sound_tree t -> no_clash excl t rs ->
  (forall q, In q known -> in_dirs t q) ->
  drun excl (dstart t known rs) (map DStep l) = Some s -> In p (ds_known s) -> in_dirs (ds_tree s) p.
Proof.
  intros S0 NC K R. apply (known_run excl t rs l NC (dstart t known rs) s).
  - now apply grown_start.
  - exact K.
  - intros i c pass k N P. apply start_thread in N. destruct N as [[d n] [_ ->]]. destruct d; discriminate.
  - exact R.
Qed.

Lemma kept_all excl t known rs l s : drun excl (dstart t known rs) (map DStep l) = Some s ->
  incl (tr_dirs t) (tr_dirs (ds_tree s)).
Proof.
  assert (K : forall l s s', drun excl s (map DStep l) = Some s' -> incl (tr_dirs (ds_tree s)) (tr_dirs (ds_tree s'))).
  { clear. induction l as [|i l IH]; intros s s' R; cbn [map drun] in R.
    - injection R as <-. intros q; auto.
    - destruct (dstep excl s (DStep i)) as [s1|] eqn:E; [|discriminate].
      apply IH in R. destruct (dstep_inv _ _ _ _ E) as [c [t [k [pc [N [C ->]]]]]].
      pose proof (grows_dirs _ _ _ _ _ (cstep_grows _ _ _ _ _ _ _ C)) as GD. intros q I. apply R. apply GD. exact I. }
  intros R. apply (K _ _ _ R).
Qed.

(** ** Cases *)
Lemma snoc_inj (p : path) x y (q : path) : p ++ [x] = q ++ [y] -> p = q /\ x = y.
Proof. apply app_inj_tail. Qed.
Lemma clash_ex :
  let t := {| tr_dirs := [[7]]; tr_files := [[7; 7]] |} in
  sound_tree t /\ no_clash true t [([1; 2], 9); ([1; 2; 3], 8)].
Proof.
  cbn zeta. split.
  - unfold sound_tree, in_dirs. cbn [tr_dirs tr_files]. split; [|split; [|split; [|split]]].
    + intros p x [E|[]]. change [7] with ([] ++ [7]) in E. apply snoc_inj in E. left. symmetry. apply E.
    + intros p x [E|[]]. change [7; 7] with ([7] ++ [7]) in E. apply snoc_inj in E. right. left. apply E.
    + intros p [<-|[]] [E|[]]. discriminate.
    + intros [E|[]]. discriminate.
    + intros [E|[]]. discriminate.
  - split; [|split].
    + intros r p I [q E]. split.
      * intros [<-|[]]. destruct I as [<-|[<-|[]]]; cbn in E; discriminate.
      * intros r' J <-. destruct I as [<-|[<-|[]]], J as [<-|[<-|[]]]; cbn in E; discriminate.
    + intros r [<-|[<-|[]]] [E|[]]; discriminate.
    + intros _. split.
      * cbn. repeat constructor; cbn; intuition discriminate.
      * intros r [<-|[<-|[]]] [E|[]]; discriminate.
Qed.
Lemma empty_sound : sound_tree {| tr_dirs := []; tr_files := [] |}.
Proof. unfold sound_tree; cbn; tauto. Qed.
Lemma removed_refuted : ~ (forall t known rs l s i,
  sound_tree t -> no_clash true t rs -> drun true (dstart t known rs) l = Some s -> ~ thread_at s i PErr).
Proof.
  intros F.
  set (r := [([1], 9)] : list request).
  set (l := [DStep 0; DStep 0; DStep 0; DRmdir [1]; DStep 0; DStep 0; DStep 0; DRmdir [1]; DStep 0]).
  destruct (drun true (dstart {| tr_dirs := []; tr_files := [] |} [] r) l) as [s|] eqn:E; [|vm_compute in E; discriminate].
  apply (F _ _ _ _ _ 0%nat empty_sound) with (2 := E).
  - split; [|split].
    + intros q p [<-|[]] [x X]. split; [intros []|]. intros q' [<-|[]] <-. discriminate.
    + intros q _ [].
    + intros _. split; [cbn; repeat constructor; intros []|]. intros q _ [].
  - vm_compute in E. injection E as <-. eexists. cbn. split; reflexivity.
Qed.
Lemma known_refuted : ~ (forall excl t known rs l s p,
  sound_tree t -> (forall q, In q known -> in_dirs t q) ->
  drun excl (dstart t known rs) (map DStep l) = Some s -> In p (ds_known s) -> in_dirs (ds_tree s) p).
Proof.
  intros F.
  set (r := [([1], 9)] : list request).
  destruct (drun false (dstart {| tr_dirs := []; tr_files := [[1]] |} [] r) (map DStep [0; 0; 0]%nat)) as [s|] eqn:E;
    [|vm_compute in E; discriminate].
  assert (S0 : sound_tree {| tr_dirs := []; tr_files := [[1]] |}).
  { unfold sound_tree, in_dirs. cbn. split; [intros ? ? []|]. split; [|split; [intros ? []|split; [intros []|intros [X|[]]; discriminate]]].
    intros p x [X|[]]. change [1] with ([] ++ [1]) in X. apply snoc_inj in X. left. symmetry. apply X. }
  pose proof (F _ _ _ _ _ _ [1] S0 (fun q (I : In q []) => match I with end) E) as G.
  vm_compute in E. injection E as <-. cbn in G. destruct G as [G|[]]; [auto|discriminate].
Qed.

(** ** If createdDirs_ is up to date, nothing is tried twice *)
Definition first_try (t : tree) (c : creator) : Prop :=
  match cr_pc c with
  | PCheck k => (1 <= k <= length (cr_dir c))%nat
  | PMk pass k => pass = 0%nat /\ (1 <= k <= length (cr_dir c))%nat /\ in_dirs t (firstn (k - 1) (cr_dir c))
  | PIns pass k => pass = 0%nat /\ (1 <= k <= length (cr_dir c))%nat /\ in_dirs t (firstn k (cr_dir c))
  | POpen again => again = false /\ in_dirs t (cr_dir c)
  | POk => True
  | PErr => False
  end.
Definition first_all (s : dsys) : Prop :=
  (forall p, In p (ds_known s) -> in_dirs (ds_tree s) p) /\
  (forall i c, nth_error (ds_threads s) i = Some c -> first_try (ds_tree s) c).
Lemma in_dirs_more t t' p : incl (tr_dirs t) (tr_dirs t') -> in_dirs t p -> in_dirs t' p.
Proof. intros I [->|H]; [left; reflexivity|right; auto]. Qed.
Lemma first_step excl t0 rs s i s' : no_clash excl t0 rs -> base excl t0 rs s -> first_all s ->
  dstep excl s (DStep i) = Some s' -> first_all s'.
Proof.
  intros NC B [K F] E.
  destruct (dstep_inv _ _ _ _ E) as [c [t [k [pc [N [C ->]]]]]]. clear E.
  pose proof (cstep_grows _ _ _ _ _ _ _ C) as G. pose proof (grows_dirs _ _ _ _ _ G) as GD.
  assert (L : (i < length (ds_threads s))%nat) by (apply nth_error_Some; congruence).
  assert (R : (forall p, In p k -> in_dirs t p) /\ first_try t (moved c pc)).
  { pose proof (F i c N) as Q. unfold first_try in Q. unfold cstep in C.
    destruct (cr_pc c) as [m|pass m|pass m|again| |] eqn:PC; try discriminate.
    - destruct (mem _ _) eqn:M; injection C as <- <- <-; (split; [exact K|]).
      + apply mem_in in M. apply K in M. destruct (Nat.eqb_spec m (length (cr_dir c))) as [->|]; cbn.
        * rewrite firstn_all in M. auto.
        * split; [reflexivity|]. split; [lia|]. rewrite Nat.sub_0_r. exact M.
      + destruct m as [|[|m]]; cbn; try lia; (split; [reflexivity|split; [lia|left; reflexivity]]).
    - destruct Q as [-> [Q2 Q3]]. destruct (mkdir (ds_tree s) _) as [t1|] eqn:M.
      + injection C as <- <- <-. split; [intros p I; exact (in_dirs_more _ _ _ GD (K p I))|].
        cbn. split; [reflexivity|]. split; [exact Q2|].
        destruct (mkdir_some _ _ _ M) as [_ [_ [[-> [D|D]]|[D _]]]]; auto.
        * exfalso. exact (base_no_file excl t0 rs s i c m B NC N D).
        * right. rewrite D. left; auto.
      + exfalso. apply (mkdir_none _ _ M). rewrite parent_firstn by auto. exact Q3.
    - destruct Q as [-> [Q2 Q3]]. injection C as <- <- <-. split.
      + intros p [<-|I]; auto.
      + destruct (Nat.eqb_spec m (length (cr_dir c))) as [->|]; cbn.
        * rewrite firstn_all in Q3. auto.
        * split; [reflexivity|]. split; [lia|]. rewrite Nat.sub_0_r. exact Q3.
    - destruct Q as [-> Q2]. destruct (open_new _ _ _) as [t1|] eqn:O.
      + injection C as <- <- <-. split; [intros p I; exact (in_dirs_more _ _ _ GD (K p I))|exact Logic.I].
      + exfalso. revert Q2. apply (open_fails excl t0 rs s i c B NC N); congruence. }
  destruct R as [R1 R2]. split; [exact R1|]. cbn [ds_tree ds_threads]. intros j d. rewrite nth_set_creator by auto.
  destruct (j =? i)%nat; [intros [= <-]; exact R2|]. intros M. specialize (F j d M). revert F. unfold first_try.
  destruct (cr_pc d); auto; intuition eauto using in_dirs_more.
Qed.
Lemma first_run excl t0 rs l : no_clash excl t0 rs -> forall s s', base excl t0 rs s -> first_all s ->
  drun excl s (map DStep l) = Some s' -> first_all s'.
Proof.
  intros NC. induction l as [|e l IH]; intros s s' B F R; cbn [map drun] in R.
  - now injection R as <-.
  - destruct (dstep excl s (DStep e)) as [s1|] eqn:E; [|discriminate]. apply (IH s1 s'); [| |exact R].
    + exact (base_step _ _ _ _ _ _ B E).
    + exact (first_step _ _ _ _ _ _ NC B F E).
Qed.
Lemma first_time excl t known rs l s i : sound_tree t -> no_clash excl t rs -> (forall p, In p known -> in_dirs t p) ->
  drun excl (dstart t known rs) (map DStep l) = Some s ->
  ~ thread_at s i (POpen true) /\ (forall pass k, thread_at s i (PMk pass k) \/ thread_at s i (PIns pass k) -> pass = 0%nat).
Proof.
  intros S0 NC K R.
  assert (F0 : first_all (dstart t known rs)).
  { split; [exact K|]. intros j c N. apply start_thread in N. destruct N as [[d n] [_ ->]]. unfold first_try. destruct d; cbn; [split; [reflexivity|left; reflexivity]|lia]. }
  pose proof (first_run _ _ _ _ NC _ _ (base_start excl t known rs S0) F0 R) as [_ F]. split.
  - intros [c [N P]]. specialize (F i c N). unfold first_try in F. rewrite P in F. destruct F; discriminate.
  - intros pass k [[c [N P]]|[c [N P]]]; specialize (F i c N); unfold first_try in F; rewrite P in F; tauto.
Qed.
