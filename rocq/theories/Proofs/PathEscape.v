(** Names that lead anywhere. *)
From Coq Require Import Lia Bool.
From Verif Require Export Proofs.PathFacts.
Import ListNotations.
Open Scope Z_scope.

Fixpoint join (l : list (list Z)) : list Z :=
  match l with [] => [] | [x] => x | x :: r => x ++ SLASH :: join r end.
Definition dotdot : list Z := [46; 46].
Definition escape_name (n : nat) (ts : list (list Z)) : list Z := join (repeat dotdot n ++ ts).
Lemma components_word x : ~ In SLASH x -> components x = [x].
Proof.
  induction x as [|c x IH]; intros H; [reflexivity|]. cbn [components In] in *. destruct (Z.eqb_spec c SLASH); [tauto|].
  rewrite IH by tauto. reflexivity.
Qed.
Lemma components_join l : l <> [] -> (forall x, In x l -> ~ In SLASH x) -> components (join l) = l.
Proof.
  induction l as [|x l IH]; [tauto|]. intros _ H. destruct l as [|y l].
  - apply components_word, H. left. reflexivity.
  - change (join (x :: y :: l)) with (x ++ SLASH :: join (y :: l)). rewrite components_slash, components_word by (apply H; left; reflexivity).
    rewrite IH; [reflexivity|discriminate|]. intros z Hz. apply H. right. exact Hz.
Qed.
Lemma join_clean l : (forall x, In x l -> ~ In 0 x) -> ~ In 0 (join l).
Proof.
  induction l as [|x l IH]; [cbn; tauto|]. intros H. destruct l as [|y l]; [apply H; left; reflexivity|].
  change (join (x :: y :: l)) with (x ++ SLASH :: join (y :: l)). rewrite in_app_iff. intros [A|[A|A]].
  - exact (H x (or_introl eq_refl) A).
  - discriminate A.
  - revert A. apply IH. intros z Hz. apply H. right. exact Hz.
Qed.
Lemma walk_up n : forall D, (length D <= n)%nat -> walk D (repeat dotdot n) = [].
Proof.
  induction n as [|n IH]; intros D H; [destruct D; [reflexivity|cbn in H; lia]|]. cbn [repeat]. unfold walk. cbn [fold_left].
  apply IH. destruct D; cbn in *; lia.
Qed.
Lemma walk_down ts : forall D, (forall x, In x ts -> down1 x = 1) -> walk D ts = rev ts ++ D.
Proof.
  induction ts as [|t ts IH]; intros D H; [reflexivity|]. unfold walk. cbn [fold_left rev].
  assert (E : enter D t = t :: D).
  { pose proof (H t (or_introl eq_refl)). destruct (shapes t) as [(_ & E)|[(_ & E)|[(_ & E)|(_ & E)]]]; try lia. apply E. }
  rewrite E. fold (walk (t :: D) ts). rewrite IH by (intros x Hx; apply H; right; exact Hx). rewrite <- app_assoc. reflexivity.
Qed.
(** A name a file can have. *)
Definition word (x : list Z) : Prop := ~ In SLASH x /\ ~ In 0 x /\ down1 x = 1.
Lemma join_last l x : join (l ++ [x]) = x \/ exists p, join (l ++ [x]) = p ++ SLASH :: x.
Proof.
  induction l as [|y l IH]; [left; reflexivity|]. right. destruct (l ++ [x]) as [|z r] eqn:E; [destruct l; discriminate E|].
  cbn [app]. rewrite E. change (join (y :: z :: r)) with (y ++ SLASH :: join (z :: r)). destruct IH as [->|(p & ->)].
  - exists y. reflexivity.
  - exists (y ++ SLASH :: p). rewrite <- app_assoc. reflexivity.
Qed.
Lemma escape_ok n ts : ts <> [] -> (forall x, In x ts -> word x) -> name_ok (escape_name (S n) ts) = true.
Proof.
  intros Hn H. unfold escape_name. cbn [repeat app]. set (r := repeat dotdot n ++ ts).
  assert (Hr : exists z l, r = z :: l).
  { destruct r as [|z l] eqn:E; [|eauto]. unfold r in E. apply app_eq_nil in E. tauto. }
  destruct Hr as (z & l & Hr). rewrite Hr. change (join (dotdot :: z :: l)) with (46 :: 46 :: SLASH :: join (z :: l)). rewrite <- Hr.
  unfold name_ok. apply andb_true_intro. split; [reflexivity|].
  destruct (exists_last Hn) as (ts' & x & Ex). destruct (H x) as (W1 & _ & W3); [rewrite Ex; apply in_or_app; right; left; reflexivity|].
  assert (E : exists p, 46 :: 46 :: SLASH :: join r = p ++ x).
  { unfold r. rewrite Ex, app_assoc. destruct (join_last (repeat dotdot n ++ ts') x) as [->|(p & ->)].
    - exists [46; 46; SLASH]. reflexivity.
    - exists (46 :: 46 :: SLASH :: p ++ [SLASH]). cbn [app]. rewrite <- app_assoc. reflexivity. }
  destruct E as (p & ->). unfold last_is. rewrite rev_app_distr. destruct (rev x) as [|c rx] eqn:Er.
  - assert (x = []) by (rewrite <- (rev_involutive x), Er; reflexivity). subst x. discriminate W3.
  - cbn [app]. destruct (Z.eqb_spec c SLASH) as [->|]; [|reflexivity]. exfalso. apply W1. apply in_rev. rewrite Er. left. reflexivity.
Qed.
Lemma escape_resolve cwd o n ts : fo_root o <> [] -> ~ In 0 (fo_root o) -> (length (resolve cwd (fo_root o)) <= n)%nat ->
  ts <> [] -> (forall x, In x ts -> word x) -> resolve cwd (getFullPath o (escape_name n ts)) = rev ts.
Proof.
  intros H1 H2 H3 H4 H5. rewrite resolve_full by assumption. unfold escape_name. rewrite cstr_id.
  - rewrite components_join.
    + rewrite walk_app, walk_up by exact H3. rewrite walk_down by (intros x Hx; apply H5, Hx). apply app_nil_r.
    + intros E. apply app_eq_nil in E. tauto.
    + intros x Hx. apply in_app_or in Hx. destruct Hx as [Hx|Hx]; [apply repeat_spec in Hx; subst x|apply H5, Hx].
      unfold SLASH. cbn. intros [A|[A|[]]]; discriminate A.
  - apply join_clean. intros x Hx. apply in_app_or in Hx. destruct Hx as [Hx|Hx]; [apply repeat_spec in Hx; subst x|apply H5, Hx].
    cbn. intros [A|[A|[]]]; discriminate A.
Qed.
Lemma anywhere cwd o ts : fo_root o <> [] -> ~ In 0 (fo_root o) -> fo_skip_writes o = false -> ts <> [] -> (forall x, In x ts -> word x) ->
  exists name, forall e seek b, bd_fileName b = name ->
    (bd_alloc b = TO_BE_DELETED -> fo_delete_extra o = true ->
       exists p, receive_open o e seek SAbsent b [] = Ret (OK, [FUnlink p]) /\ resolve cwd p = rev ts) /\
    (bd_alloc b = EXISTS_CORRECT_SIZE -> 0 <= fe_ret e 0 -> bd_offset b = 0 ->
       exists p, receive_open o e seek SAbsent b [] = Ret (OK, [FOpen p false false false]) /\ resolve cwd p = rev ts).
Proof.
  intros H1 H2 H3 H4 H5. set (n := length (resolve cwd (fo_root o))). exists (escape_name (S n) ts).
  assert (R : resolve cwd (getFullPath o (escape_name (S n) ts)) = rev ts) by (apply escape_resolve; auto).
  intros e seek b Eb. split.
  - intros Ea Ed. exists (getFullPath o (escape_name (S n) ts)). split; [|exact R]. unfold receive_open, openForBlocks. rewrite Ea, Ed, H3, Eb. reflexivity.
  - intros Ea Er Eo. exists (getFullPath o (escape_name (S n) ts)). split; [|exact R].
    unfold receive_open, openForBlocks, openExistingFile. rewrite Ea, H3, Eb, (escape_ok n ts H4 H5), Eo.
    cbn. destruct (fo_delete_extra o); cbn; unfold fret; (destruct (fe_ret e 0 <? 0) eqn:E; [apply Z.ltb_lt in E; lia|]);
      rewrite ?andb_false_r; cbn; (destruct (Z.eqb_spec (fe_ret e 0) (-1)); [lia|reflexivity]).
Qed.

(** For the examples: a receiver with directory "/srv" that succeeds in everything. *)
Definition srv : fopts :=
  {| fo_root := [47; 115; 114; 118]; fo_skip_writes := false; fo_overwrite := true; fo_resumption := false;
     fo_log_based := false; fo_delete_extra := true |}.
Definition named (name : list Z) (alloc : Z) : block_details :=
  {| bd_fileName := name; bd_seqId := 0; bd_fileSize := 0; bd_offset := 0; bd_dataSize := 0; bd_alloc := alloc; bd_prevSeqId := 0 |}.
Definition willing : fenv := {| fe_ret := fun n => 0; fe_known := fun _ _ => false; fe_sized := true |}.
