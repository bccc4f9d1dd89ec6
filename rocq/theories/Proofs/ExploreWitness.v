(** Concrete file systems for the examples and refutations of C56. *)
From Verif Require Export Proofs.ExploreFacts Model.Report.
From Verif Require Import Proofs.SourceQueueFacts.
Open Scope Z_scope.

Fixpoint at_path {T} (t : list (list Z * T)) (p : list Z) : option T :=
  match t with
  | [] => None
  | (q, x) :: r => if str_eqb q p then Some x else at_path r p
  end.
Definition ent (n : list Z) (t : dtype) : dent := {| de_name := n; de_type := t |}.
Definition or_nil (x : option (list Z)) : list Z := match x with Some p => p | None => [] end.
Definition table_env (dirs : list (list Z * (list dent * bool))) (ls st : list (list Z * (fkind * Z)))
  (rp : list (list Z * list Z)) : xenv :=
  {| xe_opendir := at_path dirs; xe_lstat := at_path ls; xe_stat := at_path st;
     xe_realpath := fun p => or_nil (at_path rp p); xe_abort := fun _ => false |}.

(** The root is "r/"; letters are single bytes. *)
Definition rt : list Z := [114; 47].
Definition opts (follow : bool) : xopts :=
  {| xo_root := rt; xo_follow := follow; xo_include := None; xo_exclude := None; xo_prune := None |}.

(** r/ holds file a (5 bytes) and directory d, which holds b (7 bytes, type not
    given by readdir) and a link c to r. So d/c/ leads back to r/. *)
Fixpoint norm (p : list Z) : list Z :=
  match p with
  | a :: b :: c :: d :: r => if str_eqb [a; b; c; d] [100; 47; 99; 47] then norm r else p
  | _ => p
  end.
Definition below (p : list Z) : option (list Z) :=
  match p with a :: b :: r => if str_eqb [a; b] rt then Some (norm r) else None | _ => None end.
Definition norm_at {T} (t : list (list Z * T)) (p : list Z) : option T :=
  match below p with Some r => at_path t r | None => None end.
Definition tree_ls (i : nat) : list dent :=
  match i with
  | O => [ent [46] DtDir; ent [97] DtReg; ent [100] DtDir]
  | _ => [ent [98] DtUnknown; ent [99] DtLnk]
  end.
(** The directory a path leads to: 0 is r/, 1 is r/d/. *)
Definition tree_loc : list Z -> option nat := norm_at [([], 0%nat); ([100; 47], 1%nat)].
Definition tree_env : xenv :=
  {| xe_opendir := fun p => match tree_loc p with Some i => Some (tree_ls i, false) | None => None end;
     xe_lstat := norm_at [([46], (FkDir, 0)); ([97], (FkReg, 5)); ([100], (FkDir, 0));
                          ([100; 47; 98], (FkReg, 7)); ([100; 47; 99], (FkLnk, 1))];
     xe_stat := norm_at [([100; 47; 99], (FkDir, 0))];
     xe_realpath := fun p => or_nil (norm_at [([100; 47; 99], [114])] p);
     xe_abort := fun _ => false |}.

(** r/ holds a link l to directory d and d itself, which holds f. *)
Definition link_env (first_link : bool) : xenv :=
  table_env
    [(rt, ((if first_link then [ent [108] DtLnk; ent [100] DtDir] else [ent [100] DtDir; ent [108] DtLnk]), false));
     (rt ++ [100; 47], ([ent [102] DtReg], false)); (rt ++ [108; 47], ([ent [102] DtReg], false))]
    [(rt ++ [108], (FkLnk, 1)); (rt ++ [100], (FkDir, 0));
     (rt ++ [100; 47; 102], (FkReg, 5)); (rt ++ [108; 47; 102], (FkReg, 5))]
    [(rt ++ [108], (FkDir, 0))]
    [(rt ++ [108], rt ++ [100])].

(** r/ holds files a and f; lstat fails for f. *)
Definition blind_env : xenv :=
  table_env [(rt, ([ent [97] DtReg; ent [102] DtReg], false))] [(rt ++ [97], (FkReg, 5))] [] [].

(** r/ holds file a and directory d, which holds f but cannot be opened. *)
Definition shut_env : xenv :=
  table_env [(rt, ([ent [97] DtReg; ent [100] DtDir], false))]
    [(rt ++ [97], (FkReg, 5)); (rt ++ [100], (FkDir, 0)); (rt ++ [100; 47; 102], (FkReg, 6))] [] [].
Definition old_f : file_chunks := {| fc_seqId := 1; fc_fileName := [100; 47; 102]; fc_fileSize := 6; fc_chunks := [{| iv_start := 0; iv_end := 6 |}] |}.

(** The thread's result when all bytes of the queue were sent. *)
Definition sent_all (bytes : Z) : stats :=
  {| st_hdr := 0; st_data := bytes; st_effHdr := 0; st_effData := bytes; st_files := 1;
     st_blocks := 1; st_failed := 0; st_blocksSend := -1; st_senderBytes := -1;
     st_local := OK; st_remote := OK; st_id := []; st_enc := 0; st_tls := false |}.


Lemma norm_app x : forall k r, (length r <= k)%nat -> norm (r ++ x) = norm (norm r ++ x).
Proof.
  induction k as [|k IH]; intros r L; [destruct r; [reflexivity|cbn in L; inversion L]|].
  destruct r as [|a [|b [|c [|d r]]]]; try reflexivity.
  cbn [app norm]. destruct (str_eqb [a; b; c; d] [100; 47; 99; 47]) eqn:Q.
  - apply IH. cbn in L. apply le_S_n in L. do 3 apply Nat.lt_le_incl in L. exact L.
  - cbn [app norm]. rewrite Q. reflexivity.
Qed.
Lemma below_app p r x : below p = Some r -> below (p ++ x) = Some (norm (r ++ x)).
Proof.
  destruct p as [|a [|b p]]; try discriminate. cbn [below app].
  destruct (str_eqb [a; b] rt); [|discriminate]. intros H. injection H as <-.
  f_equal. apply (norm_app x (length p)). apply Nat.le_refl.
Qed.
Lemma tree_loc_cases p i : tree_loc p = Some i ->
  (below p = Some [] /\ i = 0%nat) \/ (below p = Some [100; 47] /\ i = 1%nat).
Proof.
  unfold tree_loc, norm_at. destruct (below p) as [r|]; [|discriminate]. cbn [at_path].
  destruct (str_eqb [] r) eqn:A; [apply str_eqb_eq in A; intros H; injection H as <-; subst; auto|].
  destruct (str_eqb [100; 47] r) eqn:B; [apply str_eqb_eq in B; intros H; injection H as <-; subst; auto|discriminate].
Qed.
Lemma tree_finite follow : finite_fs (opts follow) tree_env 2 tree_loc tree_ls (fun i => i) (fun _ => [114]).
Proof.
  constructor.
  - discriminate.
  - intros p i H. apply tree_loc_cases in H. destruct H as [[_ ->]|[_ ->]]; split; repeat constructor.
  - intros p i l bad H Op. cbn in Op. rewrite H in Op. now injection Op as <- _.
  - intros p i d H I N1 N2 D. apply tree_loc_cases in H. destruct H as [[B ->]|[B ->]].
    + destruct I as [<-|[<-|[<-|[]]]]; cbn in N1, D.
      * congruence.
      * exfalso. destruct D as [D|[z D]]; [discriminate D|]. unfold norm_at in D.
        rewrite (below_app p [] [97] B) in D. discriminate D.
      * exists 1%nat. unfold tree_loc, norm_at. rewrite (below_app p [] _ B). split; [reflexivity|constructor].
    + exfalso. destruct I as [<-|[<-|[]]]; cbn in D; destruct D as [D|[z D]]; try discriminate D; unfold norm_at in D.
      * rewrite (below_app p _ [98] B) in D. discriminate D.
      * rewrite (below_app p _ [99] B) in D. discriminate D.
  - intros p i d z z' H I L S R. apply tree_loc_cases in H. destruct H as [[B ->]|[B ->]].
    + exfalso. destruct I as [<-|[<-|[<-|[]]]]; cbn in L; unfold norm_at in L;
        rewrite (below_app p _ _ B) in L; discriminate L.
    + destruct I as [<-|[<-|[]]]; cbn in L; unfold norm_at in L;
        rewrite (below_app p _ _ B) in L; try discriminate L.
      exists 0%nat. unfold tree_loc, norm_at. rewrite (below_app p _ _ B). split; [reflexivity|].
      cbn. unfold norm_at. rewrite (below_app p _ _ B). reflexivity.
Qed.
Lemma tree_types follow : types_agree (opts follow) tree_env.
Proof.
  intros dir d k z (l & bad & Op & I & _) L.
  change (xo_root (opts follow)) with rt in Op, L. cbn [xe_opendir tree_env] in Op.
  destruct (tree_loc (rt ++ dir)) as [i|] eqn:H; [|discriminate Op].
  injection Op as <- <-. apply tree_loc_cases in H.
  rewrite app_assoc in L. cbn [xe_lstat tree_env] in L. unfold norm_at in L.
  destruct H as [[B ->]|[B ->]]; rewrite (below_app _ _ _ B) in L.
  - destruct I as [<-|[<-|[<-|[]]]]; cbn in L; inversion L; reflexivity.
  - destruct I as [<-|[<-|[]]]; cbn in L; inversion L; try reflexivity; exact Logic.I.
Qed.
Lemma tree_names : names_ok tree_env.
Proof.
  intros p l bad Op. cbn in Op. destruct (tree_loc p) as [[|i]|]; [| |discriminate Op]; injection Op as <- _; cbn.
  - split.
    + repeat constructor; cbn; intuition discriminate.
    + intros d [<-|[<-|[<-|[]]]]; cbn; intuition discriminate.
  - split.
    + repeat constructor; cbn; intuition discriminate.
    + intros d [<-|[<-|[]]]; cbn; intuition discriminate.
Qed.
Lemma tree_examined : all_examined (opts false) tree_env.
Proof.
  assert (H : forall dir, reach (opts false) tree_env [] dir -> exists i, tree_loc (rt ++ dir) = Some i).
  { intros dir Rc. induction Rc as [|dir d Rc IH En D _]; [exists 0%nat; reflexivity|].
    destruct IH as [i Li]. destruct En as (l & bad & Op & I & N1 & N2).
    change (xo_root (opts false)) with rt in Op, D. cbn [xe_opendir tree_env] in Op. rewrite Li in Op.
    injection Op as <- <-.
    destruct (ff_sub _ _ _ _ _ _ _ (tree_finite false) (rt ++ dir) i d Li I N1 N2) as (j & Lj & _).
    - destruct D as [D|[[z D]|(F & _)]]; [auto| |discriminate F]. right. exists z. rewrite <- app_assoc. exact D.
    - exists j. rewrite <- app_assoc in Lj. exact Lj. }
  intros dir Rc. destruct (H dir Rc) as [i Li]. exists (tree_ls i).
  change (xo_root (opts false)) with rt. cbn [xe_opendir tree_env]. rewrite Li. split; [reflexivity|].
  intros d I. rewrite app_assoc. cbn [xe_lstat tree_env]. unfold norm_at.
  apply tree_loc_cases in Li. destruct Li as [[B ->]|[B ->]]; rewrite (below_app _ _ _ B).
  - destruct I as [<-|[<-|[<-|[]]]]; discriminate.
  - destruct I as [<-|[<-|[]]]; discriminate.
Qed.
