(** How files are opened. *)
From Verif Require Export Proofs.PathEscape.
From Coq Require Import Lia.
Import ListNotations.
Open Scope Z_scope.

Lemma last_rev (s : list Z) x r : rev s = x :: r -> s <> [] /\ last s 0 = x.
Proof.
  intros H. assert (E : s = rev r ++ [x]) by (rewrite <- (rev_involutive s), H; reflexivity).
  rewrite E. split; [destruct (rev r); discriminate|]. apply last_last.
Qed.
Lemma last_is_spec c s : c <> 0 -> (last_is c s = true <-> last s 0 = c).
Proof.
  intros Hc. unfold last_is. destruct (rev s) as [|x r] eqn:E.
  - apply (f_equal (@rev Z)) in E. rewrite rev_involutive in E. subst s. cbn. split; [discriminate|congruence].
  - destruct (last_rev s x r E) as [_ ->]. apply Z.eqb_eq.
Qed.
Lemma name_ok_good n : name_ok n = true <-> good_name n.
Proof.
  unfold name_ok, good_name. rewrite !andb_true_iff, !negb_true_iff.
  assert (E1 : (zlen n =? 0) = false <-> n <> []).
  { destruct n as [|z n]; [split; [discriminate|congruence]|]. split; [discriminate|]. intros _.
    apply Z.eqb_neq. unfold zlen. cbn [length]. lia. }
  assert (E2 : first_is SLASH n = false <-> hd_error n <> Some 47).
  { destruct n as [|z n]; cbn; [split; [discriminate|reflexivity]|]. rewrite Z.eqb_neq. unfold SLASH. split; congruence. }
  assert (E3 : last_is SLASH n = false <-> last n 0 <> 47).
  { pose proof (last_is_spec SLASH n ltac:(discriminate)) as E. unfold SLASH in *.
    destruct (last_is 47 n); split; try discriminate; try reflexivity; [intros H; exfalso; apply H, E; reflexivity|].
    intros _ H. apply E in H. discriminate. }
  rewrite E1, E2, E3. tauto.
Qed.
Lemma full_path o n : getFullPath o n = below_root (fo_root o) n.
Proof.
  unfold getFullPath, addTrailingSlash, below_root.
  pose proof (last_is_spec SLASH (fo_root o) ltac:(discriminate)) as E.
  destruct (last_is SLASH (fo_root o)), (Z.eqb_spec (last (fo_root o) 0) 47) as [H|H]; try reflexivity.
  - exfalso. apply H, E. reflexivity.
  - apply E in H. discriminate H.
  - rewrite <- app_assoc. reflexivity.
Qed.

Lemma no_crash o e seek st b : good_name (bd_fileName b) -> 0 <= bd_alloc b <= 4 \/ fo_log_based o = false ->
  exists r calls, receive_open o e seek st b [] = Ret (r, calls).
Proof. intros H. apply no_crash_name, name_ok_good, H. Qed.
Lemma crash o e seek st b : ~ good_name (bd_fileName b) -> bd_alloc b <> TO_BE_DELETED -> st <> SFailed ->
  fo_skip_writes o = false -> receive_open o e seek st b [] = Crash.
Proof. intros H. apply crash_name. destruct (name_ok _) eqn:E; [|reflexivity]. apply name_ok_good in E. tauto. Qed.

(** Flags. *)
Definition flags_ok (o : fopts) (c : fcall) : Prop :=
  match c with
  | FOpen _ true trunc excl => trunc = (fo_overwrite o || fo_resumption o) /\ excl = negb trunc
  | FOpen _ false trunc excl => trunc = false /\ excl = false
  | _ => True
  end.
Lemma flags_dirs o e fuel force : forall dir, traced (flags_ok o) (createDirRecursively fuel o e force dir).
Proof.
  induction fuel as [|fuel IH]; intros dir t x t' H; [discriminate H|]. cbn [createDirRecursively] in H.
  destruct (fo_skip_writes o); [injection H as <- <-; exists []; rewrite app_nil_r; auto|].
  destruct (negb force && fe_known e (length t) dir); [injection H as <- <-; exists []; rewrite app_nil_r; auto|].
  destruct (negb (last_is SLASH dir)); [discriminate|]. revert t x t' H. apply traced_bind.
  - destruct (dir_of (removelast dir)); [apply traced_ret|apply IH].
  - intros ok. destruct (negb ok); [apply traced_ret|]. apply traced_bind; [apply traced_do; exact I|]. intros code.
    destruct (_ && _ && _); apply traced_ret.
Qed.
Lemma flags_existing o e rel : traced (flags_ok o) (openExistingFile o e rel).
Proof.
  unfold openExistingFile. destruct (negb _); [apply traced_crash|].
  apply traced_bind; [apply traced_do; split; reflexivity|]. intros. apply traced_ret.
Qed.
Lemma flags_create o e rel : traced (flags_ok o) (createFile o e rel).
Proof.
  unfold createFile. destruct (negb _); [apply traced_crash|]. destruct (fo_skip_writes o); [apply traced_ret|].
  assert (M : forall force d, traced (flags_ok o) (create_dir o e force d)) by (intros; apply flags_dirs).
  apply traced_bind.
  - destruct (dir_of rel); [apply traced_ret|]. apply traced_bind; [apply M|]. intros ok. destruct ok; [apply traced_ret|apply M].
  - intros ok. destruct (negb ok); [apply traced_ret|].
    apply traced_bind; [apply traced_do; split; reflexivity|]. intros res.
    destruct (res <? 0); [|apply traced_ret]. destruct (dir_of rel); [apply traced_ret|].
    apply traced_bind; [apply M|]. intros ok'. destruct (negb ok'); [apply traced_ret|].
    apply traced_bind; [apply traced_do; split; reflexivity|]. intros res'. apply traced_ret.
Qed.
Lemma flags_receive o e seek st b : traced (flags_ok o) (receive_open o e seek st b).
Proof.
  unfold receive_open. destruct (_ && _); [apply traced_ret|]. destruct (fo_skip_writes o); [apply traced_ret|].
  apply traced_bind.
  - unfold openForBlocks. destruct (bd_alloc b =? TO_BE_DELETED).
    + apply traced_bind; [apply traced_do; exact I|]. intros. apply traced_ret.
    + destruct st; [|apply flags_existing|apply traced_ret].
      destruct (bd_alloc b =? EXISTS_CORRECT_SIZE) eqn:Ec; [apply flags_existing|].
      unfold openAndSetSize. rewrite Ec. apply traced_bind.
      * destruct (bd_alloc b =? NOT_EXISTS); [apply flags_create|apply flags_existing].
      * intros fd. destruct (fd <? 0); [apply traced_ret|]. destruct (negb (fe_sized e)); [apply traced_ret|].
        destruct (fo_log_based o && _); [|apply traced_ret].
        destruct (bd_alloc b =? EXISTS_TOO_SMALL); [apply traced_ret|apply traced_crash].
  - intros fd. destruct (bd_alloc b =? TO_BE_DELETED); [apply traced_ret|]. destruct (_ && _ && _); [apply traced_ret|].
    destruct (fd =? -1); apply traced_ret.
Qed.
Lemma only_when_allowed o e seek st b r calls p creat trunc excl :
  receive_open o e seek st b [] = Ret (r, calls) -> In (FOpen p creat trunc excl) calls ->
  (trunc = true -> creat = true /\ (fo_overwrite o = true \/ fo_resumption o = true)) /\
  (creat = true -> fo_overwrite o = false -> fo_resumption o = false -> excl = true).
Proof.
  intros H Hi. destruct (flags_receive o e seek st b [] r calls H) as (l & -> & F).
  rewrite Forall_forall in F. specialize (F _ Hi). cbn [flags_ok] in F.
  destruct creat; destruct F as [-> ->].
  - split; [intros E; split; [reflexivity|]; apply orb_true_iff, E|]. intros _ -> ->. reflexivity.
  - split; discriminate.
Qed.

(** A block accepted for writing has its file open, at its offset. *)
Definition opens (o : fopts) (e : fenv) (rel : list Z) (m : fm Z) : Prop :=
  forall t x t', m t = Ret (x, t') -> x = -1 \/
    (0 <= x /\ exists l c u v, t' = l ++ [FOpen (getFullPath o rel) c u v] /\ fe_ret e (length l) = x).
Lemma opens_ret o e rel : opens o e rel (fret (-1)).
Proof. intros t x t' [= <- <-]. left. reflexivity. Qed.
Lemma opens_bind {A} o e rel (m : fm A) f : (forall x, opens o e rel (f x)) -> opens o e rel (fbind m f).
Proof.
  intros H t x t' E. unfold fbind in E. destruct (m t) as [[y t1]| |]; try discriminate. exact (H y t1 x t' E).
Qed.
Lemma opens_do o e rel c u v :
  opens o e rel (fbind (fdo e (FOpen (getFullPath o rel) c u v)) (fun res => fret (if res <? 0 then -1 else res))).
Proof.
  intros t x t' E. cbn [fbind fdo fret] in E. unfold fbind, fdo, fret in E. injection E as E <-.
  destruct (Z.ltb_spec (fe_ret e (length t)) 0); [left; symmetry; exact E|]. right. subst x.
  split; [assumption|]. exists t, c, u, v. split; reflexivity.
Qed.
Lemma opens_existing o e rel : opens o e rel (openExistingFile o e rel).
Proof. unfold openExistingFile. destruct (negb _); [intros t x t' H; discriminate H|]. apply opens_do. Qed.
Lemma opens_create o e rel : opens o e rel (createFile o e rel).
Proof.
  unfold createFile. destruct (negb _); [intros t x t' H; discriminate H|]. destruct (fo_skip_writes o); [apply opens_ret|].
  apply opens_bind. intros ok. destruct (negb ok); [apply opens_ret|].
  intros t x t' E. unfold fbind at 1, fdo in E.
  destruct (Z.ltb_spec (fe_ret e (length t)) 0).
  - revert E. destruct (dir_of rel); [apply opens_ret|].
    refine (opens_bind o e rel _ _ _ _ _ _). intros ok'. destruct (negb ok'); [apply opens_ret|]. apply opens_do.
  - unfold fret in E. injection E as <- <-. right. split; [assumption|]. eexists t, _, _, _. split; reflexivity.
Qed.
Lemma opens_blocks o e st b : bd_alloc b <> TO_BE_DELETED -> opens o e (bd_fileName b) (openForBlocks o e st b).
Proof.
  intros Hd. unfold openForBlocks. destruct (Z.eqb_spec (bd_alloc b) TO_BE_DELETED); [tauto|].
  destruct st; [|apply opens_existing|apply opens_ret].
  destruct (bd_alloc b =? EXISTS_CORRECT_SIZE) eqn:Ec; [apply opens_existing|].
  unfold openAndSetSize. rewrite Ec. intros t x t' E. unfold fbind in E at 1.
  set (m := if bd_alloc b =? NOT_EXISTS then _ else _) in E.
  assert (O : opens o e (bd_fileName b) m) by (unfold m; destruct (_ =? NOT_EXISTS); [apply opens_create|apply opens_existing]).
  destruct (m t) as [[fd t1]| |] eqn:Em; try discriminate. specialize (O _ _ _ Em).
  destruct (Z.ltb_spec fd 0); [unfold fret in E; injection E as <- <-; left; reflexivity|].
  destruct (negb (fe_sized e)); [unfold fret in E; injection E as <- <-; left; reflexivity|].
  destruct (fo_log_based o && _).
  - destruct (bd_alloc b =? EXISTS_TOO_SMALL); [|discriminate E]. unfold fret in E. injection E as <- <-. exact O.
  - unfold fret in E. injection E as <- <-. exact O.
Qed.
Lemma accepted_open o e seek st b calls :
  receive_open o e seek st b [] = Ret (OK, calls) -> fo_skip_writes o = false -> bd_alloc b <> TO_BE_DELETED ->
  (0 < bd_offset b -> seek = true) /\
  exists l c u v, calls = l ++ [FOpen (below_root (fo_root o) (bd_fileName b)) c u v] /\ 0 <= fe_ret e (length l).
Proof.
  intros H Hs Hd. unfold receive_open in H. rewrite Hs in H.
  destruct (Z.eqb_spec (bd_alloc b) TO_BE_DELETED); [tauto|]. rewrite andb_false_r in H.
  unfold fbind in H. destruct (openForBlocks o e st b []) as [[fd t1]| |] eqn:E; try discriminate.
  apply (opens_blocks o e st b Hd) in E. unfold fret in H.
  destruct ((0 <=? fd) && (bd_offset b >? 0) && negb seek) eqn:Ek; [discriminate H|].
  destruct (Z.eqb_spec fd (-1)); [discriminate H|]. injection H as <-.
  destruct E as [E|(E1 & l & c & u & v & -> & E2)]; [tauto|]. split.
  - intros Ho. destruct seek; [reflexivity|]. rewrite andb_true_r in Ek. apply andb_false_iff in Ek.
    destruct Ek as [Ek|Ek]; [apply Z.leb_gt in Ek; lia|]. rewrite Z.gtb_ltb in Ek. apply Z.ltb_ge in Ek. lia.
  - exists l, c, u, v. rewrite full_path. split; [reflexivity|]. lia.
Qed.
