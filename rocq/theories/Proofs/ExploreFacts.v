(** Facts about discovery, for C56. *)
From Verif Require Export Spec.ExploreSpec.
From Verif Require Import Proofs.SourceQueueFacts.
From Coq Require Import Lia.
Open Scope Z_scope.

Lemma is_dots_spec n : is_dots n = false <-> n <> [46] /\ n <> [46; 46].
Proof.
  unfold is_dots. rewrite Bool.orb_false_iff, !str_eqb_neq. tauto.
Qed.

Section One.
Variables (o : xopts) (E : xenv).

Definition file_ok (dir : list Z) (d : dent) (x : list Z * Z) : Prop :=
  fst x = dir ++ de_name d /\ is_file o E (dir ++ de_name d) (snd x) /\
  selected (xo_exclude o) false (dir ++ de_name d) = false /\
  selected (xo_include o) true (dir ++ de_name d) = true.
Definition dir_ok (dir : list Z) (d : dent) (x : list Z) : Prop :=
  x = dir ++ de_name d ++ [47] /\ is_dir o E dir d /\
  selected (xo_prune o) false (dir ++ de_name d ++ [47]) = false.

(** What one entry adds. *)
Definition adds (s s' : xst) (f : list (list Z * Z)) (t : list (list Z)) : Prop :=
  xs_files s' = xs_files s ++ f /\ xs_todo s' = xs_todo s ++ t /\ xs_failed s' = xs_failed s /\
  xs_polls s' = xs_polls s /\ (xs_error s = true -> xs_error s' = true).

Lemma adds_nil s s' : xs_files s' = xs_files s -> xs_todo s' = xs_todo s ->
  xs_failed s' = xs_failed s -> xs_polls s' = xs_polls s ->
  (xs_error s = true -> xs_error s' = true) -> adds s s' [] [].
Proof. unfold adds; intros; rewrite !app_nil_r; auto. Qed.

Lemma found_file_spec dir d size s :
  is_file o E (dir ++ de_name d) size ->
  exists f, adds s (found_file o (dir ++ de_name d) size s) f [] /\
    (f = [] \/ exists x, f = [x] /\ file_ok dir d x) /\
    (selected (xo_exclude o) false (dir ++ de_name d) = false ->
     selected (xo_include o) true (dir ++ de_name d) = true ->
     f = [(dir ++ de_name d, size)]).
Proof.
  intros HF. unfold found_file.
  destruct (match xo_exclude o with Some p => p _ | None => false end) eqn:Ex.
  { exists []. split; [apply adds_nil; auto|split; [auto|]].
    unfold selected. intros H. destruct (xo_exclude o); congruence. }
  destruct (match xo_include o with Some p => negb (p _) | None => false end) eqn:In1.
  { exists []. split; [apply adds_nil; auto|split; [auto|]].
    unfold selected. intros _ H. destruct (xo_include o) as [p|]; [|discriminate].
    rewrite H in In1. discriminate In1. }
  exists [(dir ++ de_name d, size)]. split; [|split; [|auto]].
  - unfold adds; cbn. rewrite app_nil_r. auto.
  - right. exists (dir ++ de_name d, size). split; [reflexivity|]. unfold file_ok; cbn.
    split; [reflexivity|split; [exact HF|]]. unfold selected. split.
    + destruct (xo_exclude o); auto.
    + destruct (xo_include o) as [p|]; auto. now destruct (p _).
Qed.

Lemma found_dir_spec dir d full s :
  is_dir o E dir d ->
  exists t, adds s (found_dir o (dir ++ de_name d) full s) [] t /\
    (t = [] \/ exists x, t = [x] /\ dir_ok dir d x) /\
    (xs_error (found_dir o (dir ++ de_name d) full s) = false \/ xo_follow o = false ->
     selected (xo_prune o) false (dir ++ de_name d ++ [47]) = false ->
     t = [dir ++ de_name d ++ [47]]).
Proof.
  intros HD. unfold found_dir, xslash. rewrite <- !app_assoc.
  assert (P : match xo_prune o with Some p => negb (p (dir ++ de_name d ++ [47])) | None => true end
              = negb (selected (xo_prune o) false (dir ++ de_name d ++ [47]))).
  { unfold selected. destruct (xo_prune o); reflexivity. }
  rewrite P.
  destruct (xo_follow o); [destruct (existsb _ _)|].
  - exists []. split; [apply adds_nil; auto|split; [auto|]]. cbn. intros [X|X]; discriminate X.
  - destruct (selected _ _ _) eqn:Q; cbn.
    + exists []. split; [apply adds_nil; auto|split; [auto|]]. discriminate.
    + exists [dir ++ de_name d ++ [47]]. split; [|split; [|auto]].
      * unfold adds; cbn. rewrite app_nil_r. auto.
      * right. eexists; split; [reflexivity|]. repeat split; auto.
  - destruct (selected _ _ _) eqn:Q; cbn.
    + exists []. split; [apply adds_nil; auto|split; [auto|]]. discriminate.
    + exists [dir ++ de_name d ++ [47]]. split; [|split; [|auto]].
      * unfold adds; cbn. rewrite app_nil_r. auto.
      * right. eexists; split; [reflexivity|]. repeat split; auto.
Qed.

Lemma file_size dir d a b : is_file o E (dir ++ de_name d) a -> is_file o E (dir ++ de_name d) b -> a = b.
Proof. unfold is_file. intros [A|(F&[z A]&A')] [B|(F'&[z' B]&B')]; congruence. Qed.

Lemma entry_step_spec dir d s :
  exists f t, adds s (entry_step o E dir d s) f t /\
    (f = [] \/ exists x, f = [x] /\ t = [] /\ is_dots (de_name d) = false /\ file_ok dir d x) /\
    (t = [] \/ exists x, t = [x] /\ is_dots (de_name d) = false /\ dir_ok dir d x) /\
    (xs_error (entry_step o E dir d s) = false \/ xo_follow o = false -> entry_of o E dir d -> types_agree o E ->
     (forall size, file_ok dir d (dir ++ de_name d, size) -> f = [(dir ++ de_name d, size)]) /\
     (dir_ok dir d (dir ++ de_name d ++ [47]) -> t = [dir ++ de_name d ++ [47]])).
Proof.
  unfold entry_step.
  destruct (is_dots (de_name d)) eqn:Dots.
  { exists [], []. split; [apply adds_nil; auto|split; [auto|split; [auto|]]].
    intros _ (l & b & _ & _ & A & B). exfalso.
    assert (is_dots (de_name d) = false) by (apply is_dots_spec; auto). congruence. }
  (* the two kinds of result *)
  assert (DIR : forall full (lst : option (fkind * Z)),
    is_dir o E dir d -> (forall size, ~ is_file o E (dir ++ de_name d) size) ->
    exists f t, adds s (found_dir o (dir ++ de_name d) full s) f t /\
    (f = [] \/ exists x, f = [x] /\ t = [] /\ false = false /\ file_ok dir d x) /\
    (t = [] \/ exists x, t = [x] /\ false = false /\ dir_ok dir d x) /\
    (xs_error (found_dir o (dir ++ de_name d) full s) = false \/ xo_follow o = false -> entry_of o E dir d -> types_agree o E ->
     (forall size, file_ok dir d (dir ++ de_name d, size) -> f = [(dir ++ de_name d, size)]) /\
     (dir_ok dir d (dir ++ de_name d ++ [47]) -> t = [dir ++ de_name d ++ [47]]))).
  { intros full _ HD NF. destruct (found_dir_spec dir d full s HD) as (t & A & B & C).
    exists [], t. split; [exact A|]. split; [auto|]. split.
    - destruct B as [B|(x & B & B')]; [auto|right; eauto].
    - intros Er _ _. split.
      + intros size (_ & F & _). destruct (NF _ F).
      + intros (_ & _ & P). auto. }
  assert (SKIP : forall s', adds s s' [] [] -> (xs_error s' = false \/ xo_follow o = false ->
      entry_of o E dir d -> types_agree o E -> (forall size, ~ is_file o E (dir ++ de_name d) size) /\ ~ is_dir o E dir d) ->
    exists f t, adds s s' f t /\
    (f = [] \/ exists x, f = [x] /\ t = [] /\ false = false /\ file_ok dir d x) /\
    (t = [] \/ exists x, t = [x] /\ false = false /\ dir_ok dir d x) /\
    (xs_error s' = false \/ xo_follow o = false -> entry_of o E dir d -> types_agree o E ->
     (forall size, file_ok dir d (dir ++ de_name d, size) -> f = [(dir ++ de_name d, size)]) /\
     (dir_ok dir d (dir ++ de_name d ++ [47]) -> t = [dir ++ de_name d ++ [47]]))).
  { intros s' A NF. exists [], []. split; [exact A|]. split; [auto|]. split; [auto|].
    intros Er En Ty. destruct (NF Er En Ty) as [N1 N2]. split.
    - intros size (_ & F & _). destruct (N1 _ F).
    - intros (_ & F & _). destruct (N2 F). }
  assert (FAIL : adds s (xs_fail s) [] []) by (apply adds_nil; auto).
  assert (SAME : adds s s [] []) by (apply adds_nil; auto).
  destruct (negb _) eqn:Keep.
  { apply SKIP; [exact SAME|]. intros _ En Ty.
    assert (L := fun k z => Ty dir d k z En).
    unfold is_file, is_dir.
    destruct (de_type d) eqn:T; cbn in Keep; try discriminate Keep.
    - destruct (xo_follow o); [discriminate Keep|]. split.
      + intros size [X|X]; [|destruct X; discriminate]. apply L in X. discriminate X.
      + intros [X|[[z X]|X]]; [discriminate X| |destruct X; discriminate]. apply L in X. discriminate X.
    - split.
      + intros size [X|(_ & [z X] & _)]; apply L in X; discriminate X.
      + intros [X|[[z X]|(_ & [z X] & _)]]; [discriminate X| |]; apply L in X; discriminate X. }
  destruct (de_type d) eqn:T.
  1: { assert (HD : is_dir o E dir d) by (left; exact T).
       destruct (found_dir_spec dir d (xo_root o ++ dir ++ de_name d) s HD) as (t & A & B & C).
       exists [], t. split; [exact A|]. split; [auto|]. split.
       - destruct B as [B|(x & B & B')]; [auto|right; eauto].
       - intros Er En Ty. split; [|intros (_ & _ & P); auto].
         intros size (_ & [X|(_ & [z X] & _)] & _); apply (Ty dir d _ _ En) in X;
           rewrite T in X; discriminate X. }
  4: { discriminate Keep. }
  all: destruct (xe_lstat E (xo_root o ++ dir ++ de_name d)) as [[k z]|] eqn:LS;
    [|apply SKIP; [exact FAIL|intros _ _ _; split;
        [intros size [X|(_ & [z X] & _)]; congruence
        |intros [X|[[z X]|(_ & [z X] & _)]]; congruence]]].
  all: cbn [fst snd].
  all: assert (BYK : forall full sz, (k = FkLnk -> xo_follow o = false) -> z = sz ->
    exists f t, adds s (by_kind o (dir ++ de_name d) full (k, sz) s) f t /\
    (f = [] \/ exists x, f = [x] /\ t = [] /\ false = false /\ file_ok dir d x) /\
    (t = [] \/ exists x, t = [x] /\ false = false /\ dir_ok dir d x) /\
    (xs_error (by_kind o (dir ++ de_name d) full (k, sz) s) = false \/ xo_follow o = false -> entry_of o E dir d -> types_agree o E ->
     (forall size, file_ok dir d (dir ++ de_name d, size) -> f = [(dir ++ de_name d, size)]) /\
     (dir_ok dir d (dir ++ de_name d ++ [47]) -> t = [dir ++ de_name d ++ [47]]))).
  1,3,5: intros full sz NL <-; unfold by_kind; cbn [fst snd]; destruct k.
  1,5,9: (assert (HF : is_file o E (dir ++ de_name d) z) by (left; exact LS);
    destruct (found_file_spec dir d z s HF) as (f & A & B & C);
    exists f, []; split; [exact A|]; split; [destruct B as [B|(x & B & B')]; [auto|right; eauto]|];
    split; [auto|]; intros _ _ _; split;
    [ intros size (_ & F & X & Y); cbn in F; rewrite (file_size _ _ _ _ F HF); auto
    | intros (_ & [X|[[z' X]|(_ & [z' X] & _)]] & _); [rewrite T in X; discriminate X| |]; congruence ]).
  1,4,7: (apply DIR; [exact None|right; left; eauto|];
    intros size [X|(_ & [z' X] & _)]; congruence).
  1,3,5: (apply SKIP; [exact SAME|]; intros _ _ _; split;
    [ intros size [X|(FO & _)]; [congruence|rewrite NL in FO by reflexivity; discriminate FO]
    | intros [X|[[z' X]|(FO & _)]]; [congruence|congruence|rewrite NL in FO by reflexivity; discriminate FO] ]).
  1,2,3: (apply SKIP; [exact SAME|]; intros _ _ _; split;
    [ intros size [X|(_ & [z' X] & _)]; congruence
    | intros [X|[[z' X]|(_ & [z' X] & _)]]; congruence ]).
  all: destruct k; try (apply BYK; [discriminate|reflexivity]).
  all: destruct (xo_follow o) eqn:FO; [|apply BYK; [reflexivity|reflexivity]].
  all: destruct (xe_stat E (xo_root o ++ dir ++ de_name d)) as [[k' z']|] eqn:ST;
    [|apply SKIP; [exact FAIL|cbn; intros [X|X]; congruence]].
  all: destruct (xe_realpath E (xo_root o ++ dir ++ de_name d)) as [|c full] eqn:RP;
    [apply SKIP; [exact FAIL|cbn; intros [X|X]; congruence]|].
  all: unfold by_kind; cbn [fst snd]; destruct k'.
  1,5,9: (assert (HF : is_file o E (dir ++ de_name d) z') by (right; eauto);
    destruct (found_file_spec dir d z' s HF) as (f & A & B & C);
    exists f, []; split; [exact A|]; split; [destruct B as [B|(x & B & B')]; [auto|right; eauto]|];
    split; [auto|]; intros _ _ _; split;
    [ intros size (_ & F & X & Y); cbn in F; rewrite (file_size _ _ _ _ F HF); auto
    | intros (_ & [X|[[z'' X]|(_ & _ & [z'' X])]] & _); congruence ]).
  1,4,7: (apply DIR; [exact None|right; right; eauto|];
    intros size [X|(_ & _ & X)]; congruence).
  all: apply SKIP; [exact SAME|]; intros _ _ _; split;
    [ intros size [X|(_ & _ & X)]; congruence
    | intros [X|[[z'' X]|(_ & _ & [z'' X])]]; congruence ].
Qed.
End One.

Section Dir.
Variables (o : xopts) (E : xenv).

Definition from_file dir (l : list dent) (x : list Z * Z) : Prop :=
  exists d, In d l /\ is_dots (de_name d) = false /\ file_ok o E dir d x.
Definition from_dir dir (l : list dent) (x : list Z) : Prop :=
  exists d, In d l /\ is_dots (de_name d) = false /\ dir_ok o E dir d x.
Definition never_aborts : Prop := forall k, xe_abort E k = false.

Lemma read_entries_spec dir bad : forall l s,
  exists f t,
    xs_files (read_entries o E dir l bad s) = xs_files s ++ f /\
    xs_todo (read_entries o E dir l bad s) = xs_todo s ++ t /\
    xs_failed (read_entries o E dir l bad s) = xs_failed s /\
    (xs_error s = true -> xs_error (read_entries o E dir l bad s) = true) /\
    (forall x, In x f -> from_file dir l x) /\ (forall x, In x t -> from_dir dir l x) /\
    (NoDup (map de_name l) -> NoDup (map fst f) /\ NoDup t) /\
    (xs_error (read_entries o E dir l bad s) = false -> never_aborts -> bad = false) /\
    (xs_error (read_entries o E dir l bad s) = false \/ xo_follow o = false -> types_agree o E -> never_aborts ->
     (forall d, In d l -> is_dots (de_name d) = false -> entry_of o E dir d) ->
     forall d, In d l -> is_dots (de_name d) = false ->
       (forall size, file_ok o E dir d (dir ++ de_name d, size) -> In (dir ++ de_name d, size) f) /\
       (dir_ok o E dir d (dir ++ de_name d ++ [47]) -> In (dir ++ de_name d ++ [47]) t)).
Proof.
  induction l as [|d l IH]; intros s; cbn [read_entries].
  - destruct (xe_abort E (xs_polls s)) eqn:Ab.
    { exists [], []. rewrite !app_nil_r. cbn. split; [auto|]. split; [auto|]. split; [auto|]. split; [auto|].
      split; [intros x []|]. split; [intros x []|]. split; [split; constructor|].
      split; intros; exfalso; match goal with N : never_aborts |- _ => rewrite N in Ab end; discriminate Ab. }
    exists [], []. rewrite !app_nil_r.
    destruct bad; cbn; (split; [auto|]; split; [auto|]; split; [auto|]; split; [auto|];
      split; [intros x []|]; split; [intros x []|]; split; [split; constructor|]).
    + split; [discriminate|]. intros _ _ _ _ d [].
    + split; [reflexivity|]. intros _ _ _ _ d [].
  - destruct (xe_abort E (xs_polls s)) eqn:Ab.
    { exists [], []. rewrite !app_nil_r. cbn. split; [auto|]. split; [auto|]. split; [auto|]. split; [auto|].
      split; [intros x []|]. split; [intros x []|]. split; [split; constructor|].
      split; intros; exfalso; match goal with N : never_aborts |- _ => rewrite N in Ab end; discriminate Ab. }
    destruct (entry_step_spec o E dir d (xs_poll s)) as (f1 & t1 & (A1 & A2 & A3 & A4 & A5) & B & C & D).
    set (s1 := entry_step o E dir d (xs_poll s)) in *.
    destruct (IH s1) as (f2 & t2 & H1 & H2 & H3 & H4 & H5 & H6 & H7 & H9 & H8).
    exists (f1 ++ f2), (t1 ++ t2).
    rewrite H1, H2, H3, A1, A2, A3, <- !app_assoc. cbn [xs_files xs_todo xs_failed xs_poll].
    split; [reflexivity|split; [reflexivity|split; [reflexivity|split]]].
    { intros X. apply H4, A5. exact X. }
    split; [|split; [|split; [|split; [exact H9|]]]].
    + intros x X. apply in_app_or in X. destruct X as [X|X].
      * destruct B as [B|(y & B & _ & Q & R)]; rewrite B in X; [destruct X|]. destruct X as [<-|[]].
        exists d. split; [left; reflexivity|auto].
      * destruct (H5 x X) as (d' & I & R). exists d'. split; [right; exact I|exact R].
    + intros x X. apply in_app_or in X. destruct X as [X|X].
      * destruct C as [B'|(y & B' & Q & R)]; rewrite B' in X; [destruct X|]. destruct X as [<-|[]].
        exists d. split; [left; reflexivity|auto].
      * destruct (H6 x X) as (d' & I & R). exists d'. split; [right; exact I|exact R].
    + intros ND. cbn in ND. inversion ND as [|? ? NI ND']; subst. destruct (H7 ND') as [N1 N2].
      split.
      * destruct B as [B|(y & B & _ & Q & R)]; rewrite B; [exact N1|]. cbn. constructor; [|exact N1].
        intros X. apply in_map_iff in X. destruct X as (z & E1 & X).
        destruct (H5 z X) as (d' & I & _ & (R' & _)). destruct R as (R & _).
        apply NI. apply in_map_iff. exists d'. split; [|exact I].
        rewrite R, R' in E1. apply app_inv_head in E1. exact E1.
      * destruct C as [B'|(y & B' & Q & R)]; rewrite B'; [exact N2|]. cbn. constructor; [|exact N2].
        intros X. destruct (H6 y X) as (d' & I & _ & (R' & _)). destruct R as (R & _).
        apply NI. apply in_map_iff. exists d'. split; [|exact I].
        rewrite R in R'. apply app_inv_head, app_inv_tail in R'. auto.
    + intros Er Ty NA En.
      assert (Er1 : xs_error s1 = false \/ xo_follow o = false).
      { destruct Er as [Er|Er]; [left|right; exact Er].
        destruct (xs_error s1) eqn:X; [|reflexivity]. rewrite H4 in Er; auto. }
      pose proof (H8 Er Ty NA (fun d' I => En d' (or_intror I))) as H8'.
      intros d' [<-|I] Dn.
      * destruct (D Er1 (En d (or_introl eq_refl) Dn) Ty) as [D1 D2]. split.
        -- intros size F. rewrite (D1 size F). left. reflexivity.
        -- intros F. rewrite (D2 F). left. reflexivity.
      * destruct (H8' d' I Dn) as [D1 D2]. split; intros; apply in_or_app; right; auto.
Qed.

(** ** Soundness and completeness *)

Definition wanted_from (top rel : list Z) (size : Z) : Prop :=
  exists dir d, reach o E top dir /\ entry_of o E dir d /\ rel = dir ++ de_name d /\
    is_file o E rel size /\
    selected (xo_exclude o) false rel = false /\ selected (xo_include o) true rel = true.

Lemma reach_trans a b c : reach o E a b -> reach o E b c -> reach o E a c.
Proof. intros A B. induction B; [exact A|]. apply ReachSub; auto. Qed.

Lemma from_file_wanted dir l bad x : xe_opendir E (xo_root o ++ dir) = Some (l, bad) ->
  from_file dir l x -> wanted_from dir (fst x) (snd x).
Proof.
  intros Op (d & I & Dn & (F1 & F2 & F3 & F4)). exists dir, d. rewrite F1.
  split; [constructor|]. split; [|auto].
  apply is_dots_spec in Dn. exists l, bad. tauto.
Qed.
Lemma from_dir_reach dir l bad x : xe_opendir E (xo_root o ++ dir) = Some (l, bad) ->
  from_dir dir l x -> reach o E dir x.
Proof.
  intros Op (d & I & Dn & (F1 & F2 & F3)). rewrite F1. apply ReachSub; [constructor| |exact F2|exact F3].
  apply is_dots_spec in Dn. exists l, bad. tauto.
Qed.

Lemma loop_sound : forall fuel s s', explore_loop fuel o E s = Ret s' ->
  forall x, In x (xs_files s') -> In x (xs_files s) \/
    exists dir, In dir (xs_todo s) /\ wanted_from dir (fst x) (snd x).
Proof.
  induction fuel as [|fuel IH]; intros s s' R x I; cbn [explore_loop] in R;
    destruct (xs_todo s) as [|dir rest] eqn:T; try discriminate R.
  - inversion R; subst; auto.
  - inversion R; subst; auto.
  - destruct (xe_abort E (xs_polls s)) eqn:Ab. { inversion R; subst; auto. }
    destruct (xe_opendir E (xo_root o ++ dir)) as [[l bad]|] eqn:Op.
    + set (s1 := {| xs_todo := rest; xs_visited := _; xs_files := _; xs_failed := _; xs_error := _; xs_polls := _ |}) in R.
      destruct (read_entries_spec dir bad l s1) as (f & t & H1 & H2 & _ & _ & H5 & H6 & _).
      destruct (IH _ _ R x I) as [J|(dir' & J & W)].
      * rewrite H1 in J. apply in_app_or in J. destruct J as [J|J]; [left; exact J|right].
        exists dir. split; [left; reflexivity|]. eapply from_file_wanted; eauto.
      * right. rewrite H2 in J. apply in_app_or in J. destruct J as [J|J].
        -- exists dir'. split; [right; exact J|exact W].
        -- exists dir. split; [left; reflexivity|]. destruct W as (d1 & d & W1 & W2).
           exists d1, d. split; [|exact W2]. eapply reach_trans; [|exact W1]. eapply from_dir_reach; eauto.
    + destruct (IH _ _ R x I) as [J|(dir' & J & W)]; [left; exact J|right].
      exists dir'. split; [right; exact J|exact W].
Qed.

Lemma loop_error : forall fuel s s', explore_loop fuel o E s = Ret s' ->
  xs_error s = true -> xs_error s' = true.
Proof.
  induction fuel as [|fuel IH]; intros s s' R Er; cbn [explore_loop] in R;
    destruct (xs_todo s) as [|dir rest] eqn:T; try discriminate R.
  - inversion R; subst; auto.
  - inversion R; subst; auto.
  - destruct (xe_abort E (xs_polls s)) eqn:Ab. { inversion R; subst; auto. }
    destruct (xe_opendir E (xo_root o ++ dir)) as [[l bad]|] eqn:Op.
    + set (s1 := {| xs_todo := rest; xs_visited := _; xs_files := _; xs_failed := _; xs_error := _; xs_polls := _ |}) in R.
      destruct (read_entries_spec dir bad l s1) as (f & t & _ & _ & _ & H4 & _).
      apply (IH _ _ R). apply H4. exact Er.
    + apply (IH _ _ R). reflexivity.
Qed.

Lemma first_step dir l bad s : types_agree o E -> never_aborts ->
  xe_opendir E (xo_root o ++ dir) = Some (l, bad) ->
  xs_error (read_entries o E dir l bad s) = false \/ xo_follow o = false ->
  forall dd, reach o E dir dd -> dd = dir \/
    exists x, In x (xs_todo (read_entries o E dir l bad s)) /\ reach o E x dd.
Proof.
  intros Ty NA Op Er dd Rc.
  destruct (read_entries_spec dir bad l s) as (f & t & H1 & H2 & _ & _ & _ & _ & _ & _ & H8).
  assert (H8' := fun e => H8 Er Ty NA e). lapply H8'; clear H8 H8'; [intros H8'|].
  2: { intros d I Dn. apply is_dots_spec in Dn. exists l, bad. tauto. }
  induction Rc as [|dd d Rc IHR En D P]; [left; reflexivity|right].
  destruct IHR as [->|(x & I & Rx)].
  - exists (dir ++ de_name d ++ [47]). split; [|constructor].
    destruct En as (l' & b' & Op' & I & N1 & N2). rewrite Op in Op'. inversion Op'; subst l' b'.
    rewrite H2. apply in_or_app. right.
    destruct (H8' d I) as [_ Q]; [apply is_dots_spec; auto|]. apply Q. repeat split; auto.
  - exists x. split; [exact I|]. apply ReachSub; auto.
Qed.

Lemma read_entries_lstat dir bad : never_aborts -> forall l s,
  xs_error (read_entries o E dir l bad s) = false ->
  forall d, In d l -> de_name d <> [46] -> de_name d <> [46; 46] ->
  de_type d = DtReg \/ de_type d = DtUnknown -> xe_lstat E (xo_root o ++ dir ++ de_name d) <> None.
Proof.
  intros NA. induction l as [|e l IH]; intros s Er d I N1 N2 T; [destruct I|].
  cbn [read_entries] in Er. rewrite NA in Er. destruct I as [->|I]; [|eapply IH; eauto].
  intros L. destruct (read_entries_spec dir bad l (entry_step o E dir d (xs_poll s))) as (f & t & _ & _ & _ & H4 & _).
  rewrite H4 in Er; [discriminate Er|]. unfold entry_step.
  assert (Dn : is_dots (de_name d) = false) by (apply is_dots_spec; auto). rewrite Dn.
  destruct T as [T|T]; rewrite T; cbn; rewrite L; reflexivity.
Qed.

Lemma loop_examined : types_agree o E -> never_aborts ->
  forall fuel s s', explore_loop fuel o E s = Ret s' -> xs_error s' = false ->
  forall top, In top (xs_todo s) -> forall dir, reach o E top dir ->
  exists l, xe_opendir E (xo_root o ++ dir) = Some (l, false) /\
    forall d, In d l -> de_name d <> [46] -> de_name d <> [46; 46] ->
      de_type d = DtReg \/ de_type d = DtUnknown -> xe_lstat E (xo_root o ++ dir ++ de_name d) <> None.
Proof.
  intros Ty NA. induction fuel as [|fuel IH]; intros s s' R Er top It dd Rc; cbn [explore_loop] in R;
    destruct (xs_todo s) as [|dir rest] eqn:T; try discriminate R; try destruct It as [].
  - subst top. rewrite NA in R.
    destruct (xe_opendir E (xo_root o ++ dir)) as [[l bad]|] eqn:Op.
    2: { apply loop_error in R; [congruence|reflexivity]. }
    set (s1 := {| xs_todo := rest; xs_visited := _; xs_files := _; xs_failed := _; xs_error := _; xs_polls := _ |}) in R.
    assert (Er2 : xs_error (read_entries o E dir l bad s1) = false).
    { destruct (xs_error (read_entries o E dir l bad s1)) eqn:X; [|reflexivity].
      rewrite (loop_error _ _ _ R X) in Er. discriminate. }
    destruct (first_step dir l bad s1 Ty NA Op (or_introl Er2) dd Rc) as [->|(x & I & Rx)].
    + destruct (read_entries_spec dir bad l s1) as (f & t & _ & _ & _ & _ & _ & _ & _ & H9 & _).
      rewrite (H9 Er2 NA) in Op. exists l. split; [exact Op|]. eapply read_entries_lstat; eauto.
    + exact (IH _ _ R Er x I dd Rx).
  - rewrite NA in R.
    destruct (xe_opendir E (xo_root o ++ dir)) as [[l bad]|] eqn:Op.
    2: { apply loop_error in R; [congruence|reflexivity]. }
    set (s1 := {| xs_todo := rest; xs_visited := _; xs_files := _; xs_failed := _; xs_error := _; xs_polls := _ |}) in R.
    destruct (read_entries_spec dir bad l s1) as (f & t & _ & H2 & _).
    apply (IH _ _ R Er top); [|exact Rc]. rewrite H2. apply in_or_app. left. exact H.
Qed.

Lemma loop_complete : types_agree o E -> never_aborts ->
  forall fuel s s', explore_loop fuel o E s = Ret s' -> xs_error s' = false \/ xo_follow o = false ->
  (forall x, In x (xs_files s) -> In x (xs_files s')) /\
  (forall x, In x (xs_failed s) -> In x (xs_failed s')) /\
  forall top, In top (xs_todo s) ->
    (forall rel size, wanted_from top rel size -> In (rel, size) (xs_files s')) /\
    (forall dir, reach o E top dir -> xe_opendir E (xo_root o ++ dir) = None ->
     In (xo_root o ++ dir) (xs_failed s')).
Proof.
  intros Ty NA. induction fuel as [|fuel IH]; intros s s' R Er; cbn [explore_loop] in R;
    destruct (xs_todo s) as [|dir rest] eqn:T; try discriminate R.
  - inversion R; subst; split; [auto|split; [auto|intros d []]].
  - inversion R; subst; split; [auto|split; [auto|intros d []]].
  - rewrite NA in R.
    destruct (xe_opendir E (xo_root o ++ dir)) as [[l bad]|] eqn:Op.
    2: { destruct (IH _ _ R Er) as (I1 & I2 & I3). cbn in I1, I2, I3.
         split; [exact I1|split; [intros x I; apply I2, in_or_app; left; exact I|]].
         intros top [<-|I]; [|apply I3; exact I]. split.
         - intros rel size (dd & d & Rc & En & _). exfalso.
           assert (X : forall d, ~ entry_of o E dir d) by (intros d' (l' & b' & Op' & _); congruence).
           assert (Y : forall x y, reach o E x y -> x = dir -> y = dir).
           { intros x y Q Ex. induction Q as [|y d' Q IHQ En']; [exact Ex|].
             rewrite IHQ in En'. destruct (X _ En'). }
           rewrite (Y _ _ Rc eq_refl) in En. exact (X _ En).
         - intros dd Rc _.
           assert (X : forall d, ~ entry_of o E dir d) by (intros d' (l' & b' & Op' & _); congruence).
           assert (Y : forall x y, reach o E x y -> x = dir -> y = dir).
           { intros x y Q Ex. induction Q as [|y d' Q IHQ En']; [exact Ex|].
             rewrite IHQ in En'. destruct (X _ En'). }
           rewrite (Y _ _ Rc eq_refl). apply I2, in_or_app. right. left. reflexivity. }
    set (s1 := {| xs_todo := rest; xs_visited := _; xs_files := _; xs_failed := _; xs_error := _; xs_polls := _ |}) in R.
    destruct (read_entries_spec dir bad l s1) as (f & t & H1 & H2 & H3 & _ & _ & _ & _ & _ & H8).
    destruct (IH _ _ R Er) as (I1 & I2 & I3).
    assert (Er2 : xs_error (read_entries o E dir l bad s1) = false \/ xo_follow o = false).
    { destruct Er as [Er|Er]; [left|right; exact Er].
      destruct (xs_error (read_entries o E dir l bad s1)) eqn:X; [|reflexivity].
      rewrite (loop_error _ _ _ R X) in Er. discriminate. }
    assert (H8' := H8 Er2 Ty NA). lapply H8'; clear H8 H8'; [intros H8'|].
    2: { intros d I Dn. apply is_dots_spec in Dn. exists l, bad. tauto. }
    split; [|split].
    + intros x I. apply I1. rewrite H1. apply in_or_app. left. exact I.
    + intros x I. apply I2. rewrite H3. exact I.
    + intros top [<-|I].
      2: { apply I3. rewrite H2. apply in_or_app. left. exact I. }
      split.
      * intros rel size W.
        destruct W as (dd & d & Rc & En & -> & F & S1 & S2).
        destruct (first_step dir l bad s1 Ty NA Op Er2 dd Rc) as [->|(x & I & Rx)].
        -- apply I1. rewrite H1. apply in_or_app. right.
           destruct En as (l' & b' & Op' & I & N1 & N2). rewrite Op in Op'. inversion Op'; subst l' b'.
           destruct (H8' d I) as [Q _]; [apply is_dots_spec; auto|]. apply Q. repeat split; auto.
        -- apply (proj1 (I3 x I)). exists dd, d. repeat split; auto.
      * intros dd Rc No.
        destruct (first_step dir l bad s1 Ty NA Op Er2 dd Rc) as [->|(x & I & Rx)]; [congruence|].
        exact (proj2 (I3 x I) dd Rx No).
Qed.
End Dir.

(** ** No file twice *)

Definition pre (a b : list Z) : Prop := exists c, b = a ++ c.

Lemma pre_both : forall (a b c : list Z), pre a c -> pre b c -> pre a b \/ pre b a.
Proof.
  induction a as [|x a IH]; intros b c A B. { left. exists b. reflexivity. }
  destruct b as [|y b]. { right. exists (x :: a). reflexivity. }
  destruct A as [a' ->], B as [b' B]. cbn in B. injection B as -> B.
  destruct (IH b (a ++ a')) as [[w W]|[w W]].
  - exists a'. reflexivity.
  - exists b'. exact B.
  - left. exists w. cbn. congruence.
  - right. exists w. cbn. congruence.
Qed.
Lemma pre_trans a b c : pre a b -> pre b c -> pre a c.
Proof. intros [x ->] [y ->]. exists (x ++ y). now rewrite app_assoc. Qed.
Lemma pre_app a b c : pre (a ++ b) (a ++ c) -> pre b c.
Proof. intros [x X]. exists x. rewrite <- app_assoc in X. now apply app_inv_head in X. Qed.
Lemma pre_slash : forall a b, ~ In 47 a -> ~ In 47 b -> pre (a ++ [47]) (b ++ [47]) -> a = b.
Proof.
  induction a as [|x a IH]; intros b A B [c C].
  - destruct b as [|y b]; [reflexivity|]. cbn in C. injection C as -> _. destruct B. left. reflexivity.
  - destruct b as [|y b].
    + cbn in C. injection C as <- _. destruct A. left. reflexivity.
    + cbn in C. injection C as -> C. f_equal. apply IH.
      * intros I. apply A. right. exact I.
      * intros I. apply B. right. exact I.
      * exists c. exact C.
Qed.
Lemma pre_slash_no a b : ~ In 47 b -> ~ pre (a ++ [47]) b.
Proof. intros B [c ->]. apply B. rewrite !in_app_iff. left. right. left. reflexivity. Qed.

Definition apart (a b : list Z) : Prop := ~ pre a b /\ ~ pre b a.
Definition once (s : xst) : Prop :=
  ForallOrdPairs apart (xs_todo s) /\
  (forall t f, In t (xs_todo s) -> In f (xs_files s) -> ~ pre t (fst f)) /\
  NoDup (map fst (xs_files s)).

Lemma fop_app {T} (R : T -> T -> Prop) l1 : forall l2, ForallOrdPairs R l1 -> ForallOrdPairs R l2 ->
  (forall a b, In a l1 -> In b l2 -> R a b) -> ForallOrdPairs R (l1 ++ l2).
Proof.
  induction l1 as [|x l1 IH]; intros l2 A B C; cbn; [exact B|].
  inversion A as [|? ? F A']; subst. constructor.
  - apply Forall_app. split; [exact F|]. apply Forall_forall. intros b I. apply C; [left; reflexivity|exact I].
  - apply IH; auto. intros a b I J. apply C; [right; exact I|exact J].
Qed.

Lemma once_dir o E (NM : names_ok E) dir rest s1 l bad : xs_todo s1 = rest ->
  xe_opendir E (xo_root o ++ dir) = Some (l, bad) ->
  ForallOrdPairs apart (dir :: rest) ->
  (forall t f, In t (dir :: rest) -> In f (xs_files s1) -> ~ pre t (fst f)) ->
  NoDup (map fst (xs_files s1)) ->
  once (read_entries o E dir l bad s1).
Proof.
  intros Td Op A B C.
  destruct (NM _ _ _ Op) as [ND NS].
  destruct (read_entries_spec o E dir bad l s1) as (f & t & H1 & H2 & _ & _ & H5 & H6 & H7 & _).
  destruct (H7 ND) as [N1 N2].
  assert (Tt : forall x, In x t -> exists n, x = dir ++ n ++ [47] /\ ~ In 47 n).
  { intros x I. destruct (H6 x I) as (d & J & _ & (R & _)). exists (de_name d). auto. }
  assert (Ff : forall x, In x f -> exists n, fst x = dir ++ n /\ ~ In 47 n).
  { intros x I. destruct (H5 x I) as (d & J & _ & (R & _)). exists (de_name d). auto. }
  inversion A as [|? ? F A']; subst. rewrite Forall_forall in F.
  split; [|split].
  - rewrite H2. apply fop_app; [exact A'| |].
    + clear - N2 Tt. induction t as [|x t IH]; [constructor|].
      inversion N2 as [|? ? NI N2']; subst. constructor.
      * apply Forall_forall. intros y I.
        destruct (Tt x (or_introl eq_refl)) as (n & -> & Sn).
        destruct (Tt y (or_intror I)) as (m & -> & Sm). split; intros P; apply pre_app, pre_slash in P; auto; subst; contradiction.
      * apply IH; [exact N2'|]. intros y I. apply Tt. right. exact I.
    + intros a b I J. destruct (Tt b J) as (m & -> & Sm). destruct (F a I) as [F1 F2]. split; intros P.
      * destruct (pre_both a dir (dir ++ m ++ [47])) as [X|X]; auto. eexists; reflexivity.
      * apply F1. eapply pre_trans; [|exact P]. eexists; reflexivity.
  - rewrite H1, H2. intros x y I J. apply in_app_or in I. apply in_app_or in J.
    destruct I as [I|I], J as [J|J].
    + apply B; [right; exact I|exact J].
    + destruct (Ff y J) as (n & -> & _). destruct (F x I) as [F1 F2]. intros P.
      destruct (pre_both x dir (dir ++ n)) as [X|X]; auto. eexists; reflexivity.
    + destruct (Tt x I) as (m & -> & _). intros P. apply (B dir y (or_introl eq_refl) J).
      eapply pre_trans; [|exact P]. eexists; reflexivity.
    + destruct (Tt x I) as (m & -> & _). destruct (Ff y J) as (n & -> & Sn). intros P.
      apply pre_app in P. revert P. apply pre_slash_no. exact Sn.
  - rewrite H1, map_app.
    assert (X : forall a b, In a (map fst (xs_files s1)) -> In b (map fst f) -> a <> b).
    { intros a b I J <-. apply in_map_iff in I, J. destruct I as (u & U1 & U2), J as (v & V1 & V2).
      destruct (Ff v V2) as (n & V3 & _). apply (B dir u (or_introl eq_refl) U2).
      rewrite U1, <- V1, V3. eexists; reflexivity. }
    revert C N1 X. generalize (map fst (xs_files s1)) (map fst f). clear.
    induction l as [|x l IH]; intros l2 A B C; cbn; [exact B|].
    inversion A; subst. constructor.
    + intros I. apply in_app_or in I. destruct I as [I|I]; [contradiction|].
      apply (C x x); [left; reflexivity|exact I|reflexivity].
    + apply IH; auto. intros a b I J. apply C; [right; exact I|exact J].
Qed.

Lemma loop_once o E (NM : names_ok E) : forall fuel s s', explore_loop fuel o E s = Ret s' ->
  once s -> NoDup (map fst (xs_files s')).
Proof.
  induction fuel as [|fuel IH]; intros s s' R (A & B & C); cbn [explore_loop] in R;
    destruct (xs_todo s) as [|dir rest] eqn:T; try discriminate R.
  - inversion R; subst; auto.
  - inversion R; subst; auto.
  - destruct (xe_abort E (xs_polls s)) eqn:Ab. { inversion R; subst; auto. }
    destruct (xe_opendir E (xo_root o ++ dir)) as [[l bad]|] eqn:Op.
    + apply (IH _ _ R). eapply once_dir; eauto.
    + apply (IH _ _ R). inversion A; subst. split; [assumption|split; [|assumption]].
      intros t f I J. apply B; [right; exact I|exact J].
Qed.

(** ** Nothing unexamined: no error (links not followed) *)

Lemma entry_step_noerr o E dir d s : xo_follow o = false ->
  xe_lstat E (xo_root o ++ dir ++ de_name d) <> None -> xs_error s = false ->
  xs_error (entry_step o E dir d s) = false.
Proof.
  intros NF L Er. unfold entry_step. destruct (is_dots _); [exact Er|].
  rewrite NF. destruct (negb _); [exact Er|].
  assert (FD : forall full, xs_error (found_dir o (dir ++ de_name d) full s) = false).
  { intros full. unfold found_dir. rewrite NF. destruct (match xo_prune o with Some _ => _ | None => _ end); exact Er. }
  assert (FF : forall z, xs_error (found_file o (dir ++ de_name d) z s) = false).
  { intros z. unfold found_file. destruct (match xo_exclude o with Some _ => _ | None => _ end); [exact Er|].
    destruct (match xo_include o with Some _ => _ | None => _ end); exact Er. }
  assert (BK : forall full st, xs_error (by_kind o (dir ++ de_name d) full st s) = false).
  { intros full [k z]. unfold by_kind; cbn. destruct k; auto. }
  destruct (de_type d); auto; destruct (xe_lstat _ _) as [[k z]|]; try congruence; cbn [fst]; destruct k; auto.
Qed.
Lemma read_entries_noerr o E dir : xo_follow o = false -> forall l s,
  (forall d, In d l -> xe_lstat E (xo_root o ++ dir ++ de_name d) <> None) -> xs_error s = false ->
  xs_error (read_entries o E dir l false s) = false.
Proof.
  intros NF. induction l as [|d l IH]; intros s H Er; cbn; destruct (xe_abort E (xs_polls s)); auto.
  apply IH. { intros d' I. apply H. right. exact I. }
  apply entry_step_noerr; auto. apply H. left. reflexivity.
Qed.
Lemma loop_noerr o E : xo_follow o = false -> never_aborts E -> all_examined o E ->
  forall fuel s s', explore_loop fuel o E s = Ret s' ->
  (forall t, In t (xs_todo s) -> reach o E [] t) -> xs_error s = false -> xs_error s' = false.
Proof.
  intros NF NA AE. induction fuel as [|fuel IH]; intros s s' R Rc Er; cbn [explore_loop] in R;
    destruct (xs_todo s) as [|dir rest] eqn:T; try discriminate R.
  - inversion R; subst; auto.
  - inversion R; subst; auto.
  - rewrite NA in R. destruct (AE dir (Rc dir (or_introl eq_refl))) as (l & Op & L).
    rewrite Op in R. apply (IH _ _ R).
    + intros t I.
      destruct (read_entries_spec o E dir false l {| xs_todo := rest; xs_visited := xs_visited s;
        xs_files := xs_files s; xs_failed := xs_failed s; xs_error := xs_error s; xs_polls := S (xs_polls s) |})
        as (f & tt & _ & H2 & _ & _ & _ & H6 & _).
      rewrite H2 in I. apply in_app_or in I. cbn in I. destruct I as [I|I]; [apply Rc; right; exact I|].
      eapply reach_trans; [apply Rc; left; reflexivity|]. eapply from_dir_reach; eauto.
    + apply read_entries_noerr; auto.
Qed.

(** ** It ends *)

Fixpoint wgt (w k : nat) : nat := match k with O => O | S k' => S (w * wgt w k') end.
Lemma wgt_mono w a b : (a <= b)%nat -> (wgt w a <= wgt w b)%nat.
Proof.
  revert b; induction a as [|a IH]; intros b L; [apply Nat.le_0_l|].
  destruct b as [|b]; [lia|]. cbn. apply le_n_S, Nat.mul_le_mono_l, IH. lia.
Qed.

Section Ends.
Variables (o : xopts) (E : xenv) (n : nat) (loc : list Z -> option nat) (ls : nat -> list dent)
  (depth : nat -> nat) (canon : nat -> list Z).
Hypothesis F : finite_fs o E n loc ls depth canon.

Definition width : nat := list_max (map (fun i => length (ls i)) (seq 0 n)).
Definition tw (t : list Z) : nat :=
  match loc (xo_root o ++ t) with Some i => wgt width (n - depth i) | None => O end.
Definition unseen (v : list (list Z)) : nat :=
  length (filter (fun j => negb (existsb (str_eqb (canon j)) v)) (seq 0 n)).
Definition phi (s : xst) : nat :=
  (list_sum (map tw (xs_todo s)) + wgt width n * unseen (xs_visited s))%nat.
Definition placed (s : xst) : Prop := forall t, In t (xs_todo s) -> loc (xo_root o ++ t) <> None.

Lemma filter_len {T} (f g : T -> bool) l : (forall x, g x = true -> f x = true) ->
  (length (filter g l) <= length (filter f l))%nat.
Proof.
  intros H. induction l as [|x l IH]; cbn; [lia|].
  destruct (g x) eqn:G; [rewrite (H x G); cbn; lia|]. destruct (f x); cbn; lia.
Qed.
Lemma filter_less {T} (f g : T -> bool) l x : (forall x, g x = true -> f x = true) ->
  In x l -> g x = false -> f x = true -> (length (filter g l) < length (filter f l))%nat.
Proof.
  intros H. induction l as [|y l IH]; cbn; [intros []|]. intros [->|I] G Fx.
  - rewrite G, Fx. cbn. pose proof (filter_len f g l H). lia.
  - specialize (IH I G Fx). destruct (g y) eqn:Gy; [rewrite (H y Gy); cbn; lia|]. destruct (f y); cbn; lia.
Qed.
Lemma unseen_mono v full : (unseen (full :: v) <= unseen v)%nat.
Proof.
  apply filter_len. intros j. cbn. rewrite Bool.negb_orb. intros H. now apply andb_prop in H.
Qed.
Lemma unseen_less v j : (j < n)%nat -> existsb (str_eqb (canon j)) v = false ->
  (unseen (canon j :: v) < unseen v)%nat.
Proof.
  intros L H. apply filter_less with (x := j).
  - intros i. cbn. rewrite Bool.negb_orb. intros G. now apply andb_prop in G.
  - apply in_seq. lia.
  - cbn. rewrite str_eqb_refl. reflexivity.
  - rewrite H. reflexivity.
Qed.

Lemma len_width i : (i < n)%nat -> (length (ls i) <= width)%nat.
Proof.
  intros L. unfold width.
  assert (H := proj1 (list_max_le (map (fun i => length (ls i)) (seq 0 n)) _) (Nat.le_refl _)).
  rewrite Forall_forall in H. apply H. apply in_map_iff. exists i. split; [reflexivity|]. apply in_seq. lia.
Qed.
Lemma existsb_sym full v : existsb (str_eqb full) v = false -> forall j, canon j = full ->
  existsb (str_eqb (canon j)) v = false.
Proof. intros H j ->. exact H. Qed.

Lemma list_sum_app_one l x : list_sum (l ++ [x]) = (list_sum l + x)%nat.
Proof. rewrite list_sum_app. cbn. lia. Qed.

Lemma found_dir_sub dir d full s i k : placed s -> loc (xo_root o ++ dir) = Some i ->
  (exists j, loc (xo_root o ++ dir ++ de_name d ++ [47]) = Some j /\ (depth i < depth j)%nat) ->
  (n - depth i = S k)%nat ->
  let s' := found_dir o (dir ++ de_name d) full s in placed s' /\ (phi s' <= phi s + wgt width k)%nat.
Proof.
  intros P Li (j & Lj & D) K s'.
  assert (W : (tw (dir ++ de_name d ++ [47%Z]) <= wgt width k)%nat).
  { unfold tw. rewrite Lj. apply wgt_mono. lia. }
  assert (G : forall s0, xs_todo s0 = xs_todo s ++ [dir ++ de_name d ++ [47]] ->
    (unseen (xs_visited s0) <= unseen (xs_visited s))%nat ->
    placed s0 /\ (phi s0 <= phi s + wgt width k)%nat).
  { intros s0 T U. split.
    - intros t I. rewrite T in I. apply in_app_or in I. destruct I as [I|[<-|[]]]; [apply P; exact I|].
      rewrite Lj. discriminate.
    - unfold phi. rewrite T, map_app. cbn [map]. rewrite list_sum_app_one.
      pose proof (Nat.mul_le_mono_l _ _ (wgt width n) U). lia. }
  assert (G' : forall s0, xs_todo s0 = xs_todo s ->
    (unseen (xs_visited s0) <= unseen (xs_visited s))%nat ->
    placed s0 /\ (phi s0 <= phi s + wgt width k)%nat).
  { intros s0 T U. split.
    - intros t I. rewrite T in I. apply P; exact I.
    - unfold phi. rewrite T. pose proof (Nat.mul_le_mono_l _ _ (wgt width n) U). lia. }
  unfold s', found_dir, xslash. rewrite <- !app_assoc.
  destruct (xo_follow o); [destruct (existsb _ _); [apply G'; [reflexivity|apply Nat.le_refl]|]|];
    destruct (match xo_prune o with Some _ => _ | None => _ end).
  - apply G; [reflexivity|apply unseen_mono].
  - apply G'; [reflexivity|apply unseen_mono].
  - apply G; [reflexivity|apply Nat.le_refl].
  - apply G'; [reflexivity|apply Nat.le_refl].
Qed.

Lemma found_dir_link dir d s j : placed s -> xo_follow o = true ->
  loc (xo_root o ++ dir ++ de_name d ++ [47]) = Some j ->
  let s' := found_dir o (dir ++ de_name d) (canon j) s in placed s' /\ (phi s' <= phi s)%nat.
Proof.
  intros P Fo Lj s'. destruct (ff_bound _ _ _ _ _ _ _ F _ _ Lj) as [B1 B2].
  assert (W : (tw (dir ++ de_name d ++ [47%Z]) <= wgt width n)%nat).
  { unfold tw. rewrite Lj. apply wgt_mono. lia. }
  unfold s', found_dir, xslash. rewrite <- !app_assoc, Fo.
  destruct (existsb _ _) eqn:X.
  - split; [exact P|apply Nat.le_refl].
  - pose proof (unseen_less _ _ B1 X) as U.
    assert (M : (wgt width n * unseen (canon j :: xs_visited s) + wgt width n <= wgt width n * unseen (xs_visited s))%nat).
    { replace (unseen (xs_visited s)) with (S (unseen (xs_visited s) - 1)) by lia.
      rewrite Nat.mul_succ_r. apply Nat.add_le_mono_r, Nat.mul_le_mono_l. lia. }
    destruct (match xo_prune o with Some _ => _ | None => _ end).
    + split.
      * intros t I. cbn in I. apply in_app_or in I. destruct I as [I|[<-|[]]]; [apply P; exact I|].
        rewrite Lj. discriminate.
      * unfold phi. cbn [xs_todo xs_visited]. rewrite map_app. cbn [map]. rewrite list_sum_app_one. lia.
    + split; [exact P|]. unfold phi. cbn [xs_todo xs_visited]. lia.
Qed.

Lemma same_phi s s' : xs_todo s' = xs_todo s -> xs_visited s' = xs_visited s -> placed s -> forall k,
  placed s' /\ (phi s' <= phi s + k)%nat.
Proof. intros A B P k. unfold placed, phi. rewrite A, B. split; [exact P|lia]. Qed.

Lemma entry_step_ends dir d s i k : placed s -> loc (xo_root o ++ dir) = Some i -> In d (ls i) ->
  (n - depth i = S k)%nat ->
  let s' := entry_step o E dir d s in placed s' /\ (phi s' <= phi s + wgt width k)%nat.
Proof.
  intros P Li I K. cbn zeta. unfold entry_step.
  destruct (is_dots (de_name d)) eqn:Dn. { apply same_phi; auto. }
  destruct (negb _) eqn:Keep. { apply same_phi; auto. }
  apply is_dots_spec in Dn. destruct Dn as [N1 N2].
  assert (FAIL : placed (xs_fail s) /\ (phi (xs_fail s) <= phi s + wgt width k)%nat) by (apply same_phi; auto).
  assert (SUB : de_type d = DtDir \/ (exists z, xe_lstat E ((xo_root o ++ dir) ++ de_name d) = Some (FkDir, z)) ->
    exists j, loc (xo_root o ++ dir ++ de_name d ++ [47]) = Some j /\ (depth i < depth j)%nat).
  { intros H. destruct (ff_sub _ _ _ _ _ _ _ F _ _ _ Li I N1 N2 H) as (j & A & B).
    exists j. rewrite <- !app_assoc in A. auto. }
  assert (FILE : forall rel z, placed (found_file o rel z s) /\ (phi (found_file o rel z s) <= phi s + wgt width k)%nat).
  { intros rel z. unfold found_file. destruct (match xo_exclude o with Some _ => _ | None => _ end); [apply same_phi; auto|].
    destruct (match xo_include o with Some _ => _ | None => _ end); apply same_phi; auto. }
  destruct (de_type d) eqn:T.
  1: { apply (found_dir_sub dir d _ s i k P Li); [|exact K]. apply SUB. auto. }
  4: discriminate Keep.
  all: rewrite <- app_assoc in SUB.
  all: destruct (xe_lstat E (xo_root o ++ dir ++ de_name d)) as [[kd z]|] eqn:LS; [|exact FAIL].
  all: cbn [fst].
  all: assert (BK : (kd = FkLnk -> True) -> placed (by_kind o (dir ++ de_name d) (xo_root o ++ dir ++ de_name d) (kd, z) s) /\
    (phi (by_kind o (dir ++ de_name d) (xo_root o ++ dir ++ de_name d) (kd, z) s) <= phi s + wgt width k)%nat).
  1,3,5: (intros _; unfold by_kind; cbn [fst snd]; destruct kd;
    [apply FILE|apply (found_dir_sub dir d _ s i k P Li); [apply SUB; eauto|exact K]|apply same_phi; auto|apply same_phi; auto]).
  all: destruct kd; try (apply BK; auto).
  all: destruct (xo_follow o) eqn:Fo; [|apply BK; auto].
  all: destruct (xe_stat E (xo_root o ++ dir ++ de_name d)) as [[kd' z']|] eqn:ST; [|exact FAIL].
  all: destruct (xe_realpath E (xo_root o ++ dir ++ de_name d)) as [|c full] eqn:RP; [exact FAIL|].
  all: unfold by_kind; cbn [fst snd]; destruct kd'; [apply FILE| |apply same_phi; auto|apply same_phi; auto].
  all: destruct (ff_link _ _ _ _ _ _ _ F (xo_root o ++ dir) i d z z' Li I) as (j & A & B);
    rewrite <- ?app_assoc; [exact LS|exact ST|rewrite RP; discriminate|].
  all: rewrite <- ?app_assoc in A; rewrite <- ?app_assoc in B; rewrite RP in B; rewrite B.
  all: destruct (found_dir_link dir d s j P Fo A) as [Q1 Q2]; split; [exact Q1|]; lia.
Qed.

Lemma read_entries_ends dir bad i k : loc (xo_root o ++ dir) = Some i -> (n - depth i = S k)%nat ->
  forall l s, placed s -> (forall d, In d l -> In d (ls i)) ->
  let s' := read_entries o E dir l bad s in placed s' /\ (phi s' <= phi s + length l * wgt width k)%nat.
Proof.
  intros Li K. induction l as [|d l IH]; intros s P H; cbn zeta; cbn [read_entries length].
  - destruct (xe_abort E (xs_polls s)); [apply same_phi; auto|]. destruct bad; apply same_phi; auto.
  - destruct (xe_abort E (xs_polls s)); [apply same_phi; auto|].
    destruct (entry_step_ends dir d (xs_poll s) i k P Li (H d (or_introl eq_refl)) K) as [P1 Q1].
    destruct (IH _ P1 (fun d' I => H d' (or_intror I))) as [P2 Q2]. split; [exact P2|].
    cbn zeta in Q1. change (phi (xs_poll s)) with (phi s) in Q1.
    rewrite Nat.mul_succ_l. lia.
Qed.

Lemma loop_ends : forall fuel s, placed s -> (phi s <= fuel)%nat ->
  exists s', explore_loop fuel o E s = Ret s'.
Proof.
  induction fuel as [|fuel IH]; intros s P L; cbn [explore_loop];
    destruct (xs_todo s) as [|dir rest] eqn:T; eauto.
  - exfalso. unfold phi in L. rewrite T in L. cbn [map list_sum fold_right] in L.
    assert (W : (tw dir >= 1)%nat).
    { unfold tw. destruct (loc (xo_root o ++ dir)) as [i|] eqn:Li.
      - destruct (ff_bound _ _ _ _ _ _ _ F _ _ Li). destruct (n - depth i)%nat eqn:K; [lia|]. cbn. lia.
      - destruct (P dir); [rewrite T; left; reflexivity|exact Li]. }
    change (list_sum (tw dir :: map tw rest)) with (tw dir + list_sum (map tw rest))%nat in L. lia.
  - destruct (xe_abort E (xs_polls s)); eauto.
    destruct (loc (xo_root o ++ dir)) as [i|] eqn:Li.
    2: { destruct (P dir); [rewrite T; left; reflexivity|exact Li]. }
    destruct (ff_bound _ _ _ _ _ _ _ F _ _ Li) as [B1 B2].
    destruct (n - depth i)%nat as [|k] eqn:K; [lia|].
    assert (Pr : forall t, In t rest -> loc (xo_root o ++ t) <> None).
    { intros t I. apply P. rewrite T. right. exact I. }
    assert (Ph : phi s = (S (width * wgt width k) + (list_sum (map tw rest) + wgt width n * unseen (xs_visited s)))%nat).
    { unfold phi. rewrite T. cbn [map].
      change (list_sum (tw dir :: map tw rest)) with (tw dir + list_sum (map tw rest))%nat.
      assert (TW : tw dir = S (width * wgt width k)) by (unfold tw; rewrite Li, K; reflexivity).
      rewrite TW. lia. }
    destruct (xe_opendir E (xo_root o ++ dir)) as [[l bad]|] eqn:Op.
    + pose proof (ff_ls _ _ _ _ _ _ _ F _ _ _ _ Li Op) as ->.
      set (s1 := {| xs_todo := rest; xs_visited := _; xs_files := _; xs_failed := _; xs_error := _; xs_polls := _ |}).
      destruct (read_entries_ends dir bad i k Li K (ls i) s1 Pr (fun d I => I)) as [P1 Q1].
      apply IH; [exact P1|]. cbn zeta in Q1.
      assert (Ph1 : phi s1 = (list_sum (map tw rest) + wgt width n * unseen (xs_visited s))%nat) by reflexivity.
      pose proof (Nat.mul_le_mono_r _ _ (wgt width k) (len_width i B1)). lia.
    + apply IH; [exact Pr|]. unfold phi in *. cbn [xs_todo xs_visited]. lia.
Qed.
End Ends.

Lemma more_fuel o E : forall fuel s s', explore_loop fuel o E s = Ret s' ->
  explore_loop (S fuel) o E s = Ret s'.
Proof.
  induction fuel as [|fuel IH]; intros s s' R.
  - cbn [explore_loop] in *. destruct (xs_todo s); [exact R|discriminate R].
  - cbn [explore_loop] in R. cbn [explore_loop]. destruct (xs_todo s) as [|dir rest]; [exact R|].
    destruct (xe_abort E (xs_polls s)); [exact R|].
    destruct (xe_opendir E (xo_root o ++ dir)) as [[l bad]|]; apply IH in R; exact R.
Qed.

(** ** The statements for explore *)

Lemma explore_run fuel o E s : explore fuel o E = Ret s -> explore_loop fuel o E xs_init = Ret s.
Proof. unfold explore. destruct (xo_root o); [discriminate|auto]. Qed.

Theorem explore_sound fuel o E s : explore fuel o E = Ret s ->
  forall rel size, In (rel, size) (xs_files s) -> wanted o E rel size.
Proof.
  intros R rel size I. apply explore_run in R.
  destruct (loop_sound _ _ _ _ _ R _ I) as [[]|(dir & [<-|[]] & W)]. exact W.
Qed.
Theorem explore_once fuel o E s : names_ok E -> explore fuel o E = Ret s ->
  NoDup (map fst (xs_files s)).
Proof.
  intros NM R. apply explore_run in R. apply (loop_once o E NM _ _ _ R).
  split; [repeat constructor|split; [intros t f _ []|constructor]].
Qed.
Theorem explore_complete fuel o E s : types_agree o E -> (forall k, xe_abort E k = false) ->
  explore fuel o E = Ret s -> xs_error s = false \/ xo_follow o = false ->
  forall rel size, wanted o E rel size -> In (rel, size) (xs_files s).
Proof.
  intros Ty NA R Er rel size W. apply explore_run in R.
  destruct (loop_complete o E Ty NA _ _ _ R Er) as (_ & _ & C).
  apply (C [] (or_introl eq_refl)). exact W.
Qed.
Theorem explore_failed fuel o E s : types_agree o E -> (forall k, xe_abort E k = false) ->
  explore fuel o E = Ret s -> xo_follow o = false ->
  forall dir, reach o E [] dir -> xe_opendir E (xo_root o ++ dir) = None ->
  In (xo_root o ++ dir) (xs_failed s).
Proof.
  intros Ty NA R Er. apply explore_run in R.
  destruct (loop_complete o E Ty NA _ _ _ R (or_intror Er)) as (_ & _ & C).
  apply (C [] (or_introl eq_refl)).
Qed.
Theorem explore_noerr fuel o E s : xo_follow o = false -> (forall k, xe_abort E k = false) ->
  all_examined o E -> explore fuel o E = Ret s -> xs_error s = false.
Proof.
  intros NF NA AE R. apply explore_run in R. apply (loop_noerr o E NF NA AE _ _ _ R); [|reflexivity].
  intros t [<-|[]]. constructor.
Qed.
Theorem explore_ends o E n loc ls depth canon : xo_root o <> [] ->
  finite_fs o E n loc ls depth canon -> exists fuel s, explore fuel o E = Ret s.
Proof.
  intros NR F. destruct (loop_ends o E n loc ls depth canon F (phi o n loc ls depth canon xs_init) xs_init) as [s R].
  - intros t [<-|[]]. rewrite app_nil_r. exact (ff_root _ _ _ _ _ _ _ F).
  - apply Nat.le_refl.
  - eexists _, s. unfold explore. destruct (xo_root o) eqn:Q; [congruence|exact R].
Qed.
Theorem explore_fuel f1 f2 o E s1 s2 : explore f1 o E = Ret s1 -> explore f2 o E = Ret s2 -> s1 = s2.
Proof.
  intros A B. apply explore_run in A. apply explore_run in B.
  assert (M : forall k f s, explore_loop f o E xs_init = Ret s -> explore_loop (k + f) o E xs_init = Ret s).
  { induction k as [|k IH]; intros f s R; [exact R|]. apply (more_fuel o E), IH. exact R. }
  apply (M f2) in A. apply (M f1) in B. rewrite Nat.add_comm in A. congruence.
Qed.
Theorem explore_examined fuel o E s : types_agree o E -> (forall k, xe_abort E k = false) ->
  explore fuel o E = Ret s -> xs_error s = false ->
  forall dir, reach o E [] dir ->
  exists l, xe_opendir E (xo_root o ++ dir) = Some (l, false) /\
    forall d, In d l -> de_name d <> [46] -> de_name d <> [46; 46] ->
      de_type d = DtReg \/ de_type d = DtUnknown -> xe_lstat E (xo_root o ++ dir ++ de_name d) <> None.
Proof.
  intros Ty NA R Er dir Rc. apply explore_run in R.
  exact (loop_examined o E Ty NA _ _ _ R Er [] (or_introl eq_refl) dir Rc).
Qed.

(** ** A given list of files *)

Theorem enqueue_ok E root : forall l k fs failed,
  enqueueFiles root E k l = (fs, failed, true) -> failed = None /\ Forall2 (resolved E root) l fs.
Proof.
  induction l as [|[name size] l IH]; intros k fs failed R; cbn in R.
  - injection R as <- <-. split; [reflexivity|constructor].
  - destruct (xe_abort E k); [discriminate R|].
    destruct (enqueueFiles root E (S k) l) as [[fs' failed'] ok] eqn:Q.
    destruct (size <? 0) eqn:N.
    + destruct (xe_stat E (root ++ name)) as [[kd z]|] eqn:S; [|discriminate R].
      injection R as <- <- ->. destruct (IH _ _ _ Q) as [A B]. split; [exact A|]. constructor; [|exact B].
      apply Z.ltb_lt in N. split; [reflexivity|]. cbn. split; [lia|]. intros _. exists kd. exact S.
    + injection R as <- <- ->. destruct (IH _ _ _ Q) as [A B]. split; [exact A|]. constructor; [|exact B].
      apply Z.ltb_ge in N. split; [reflexivity|]. cbn. split; [reflexivity|lia].
Qed.
Theorem enqueue_bad E root : (forall k, xe_abort E k = false) -> forall l k fs failed,
  enqueueFiles root E k l = (fs, failed, false) ->
  exists name size, failed = Some name /\ In (name, size) l /\ size < 0 /\ xe_stat E (root ++ name) = None.
Proof.
  intros NA. induction l as [|[name size] l IH]; intros k fs failed R; cbn in R; [discriminate R|].
  rewrite NA in R. destruct (enqueueFiles root E (S k) l) as [[fs' failed'] ok] eqn:Q.
  destruct (size <? 0) eqn:N.
  - destruct (xe_stat E (root ++ name)) as [[kd z]|] eqn:S.
    + injection R as <- <- ->. destruct (IH _ _ _ Q) as (n & z' & A & B & C). exists n, z'.
      split; [exact A|split; [right; exact B|exact C]].
    + injection R as <- <-. exists name, size. apply Z.ltb_lt in N.
      split; [reflexivity|split; [left; reflexivity|auto]].
  - injection R as <- <- ->. destruct (IH _ _ _ Q) as (n & z' & A & B & C). exists n, z'.
    split; [exact A|split; [right; exact B|exact C]].
Qed.

(** A traversal that stopped before every directory found was read is an error. *)
Theorem explore_stopped fuel o E s : explore fuel o E = Ret s -> xs_error s = false -> xs_todo s = [].
Proof.
  intros R Er. apply explore_run in R. revert R Er. generalize xs_init.
  induction fuel as [|fuel IH]; intros s0 R Er; cbn [explore_loop] in R;
    destruct (xs_todo s0) as [|dir rest] eqn:T; try discriminate R.
  - inversion R; subst; exact T.
  - inversion R; subst; exact T.
  - destruct (xe_abort E (xs_polls s0)) eqn:Ab; [inversion R; subst; discriminate Er|].
    destruct (xe_opendir E (xo_root o ++ dir)) as [[l bad]|]; exact (IH _ R Er).
Qed.
