(** Invariant of a session of Model/CrashLog.v. *)
From Verif Require Export Spec.CrashSpec Proofs.LogFacts Proofs.DiskFacts.
From Coq Require Import Lia.

Local Opaque Z.pow.

(** The log vouches for byte [x] of the file [name]. *)
Definition vouched (seg : list log_entry) (name : list Z) (x : Z) : Prop :=
  exists seq size post, incarnation seg seq name size post /\ logged post seq x.
(** Some prefix of the session's entries does. *)
Definition claims (seg new : list log_entry) (name : list Z) (x : Z) : Prop :=
  exists a b, new = a ++ b /\ vouched (seg ++ a) name x.
Definition plain (e : log_entry) : Prop :=
  match e with LHeader _ _ _ _ _ | LDirInval _ => False | _ => True end.

Definition logs (es new : list log_entry) (m : tlm) : Prop :=
  tm_open m = true /\ tm_headerWritten m = true /\
  exists fl un, new = fl ++ un /\ holds (tm_file m) (es ++ fl) /\ tm_entries m = map entry_bytes un.

Lemma str_eqb_refl s : str_eqb s s = true.
Proof. induction s as [|a s IH]; cbn; [reflexivity|]. rewrite Z.eqb_refl; exact IH. Qed.
Lemma str_eqb_eq a b : str_eqb a b = true <-> a = b.
Proof.
  split; [|intros ->; apply str_eqb_refl].
  revert b; induction a as [|x a IH]; intros [|y b]; cbn; try discriminate; auto.
  intros H; apply andb_true_iff in H; destruct H as [H1 H2].
  apply Z.eqb_eq in H1; subst; f_equal; auto.
Qed.
Lemma dput_same d n v : dput d n v n = v.
Proof. unfold dput; rewrite str_eqb_refl; reflexivity. Qed.
Lemma dput_other d n v m : m <> n -> dput d n v m = d m.
Proof.
  intros H; unfold dput; destruct (str_eqb m n) eqn:E; [|reflexivity].
  apply str_eqb_eq in E; congruence.
Qed.
Lemma mput_same m k v : mput m k v k = Some v.
Proof. unfold mput; rewrite Z.eqb_refl; reflexivity. Qed.
Lemma mput_other m k v x : x <> k -> mput m k v x = m x.
Proof. intros H; unfold mput; destruct (Z.eqb_spec x k); congruence. Qed.
Lemma on_file_other d n g m : m <> n -> on_file d n g m = d m.
Proof. intros H; unfold on_file; destruct (d n); [apply dput_other, H|reflexivity]. Qed.
Lemma on_file_same d n g : on_file d n g n = match d n with Some f => Some (g f) | None => None end.
Proof. unfold on_file; destruct (d n) eqn:E; [apply dput_same|exact E]. Qed.

Lemma claims_now seg new name x : vouched (seg ++ new) name x -> claims seg new name x.
Proof. intros H; exists new, []; rewrite app_nil_r; auto. Qed.
Lemma claims_nil seg name x : claims seg [] name x -> vouched seg name x.
Proof.
  intros (a & b & E & H). symmetry in E; apply app_eq_nil in E; destruct E as [-> ->].
  rewrite app_nil_r in H; exact H.
Qed.
Lemma claims_snoc seg new e name x : claims seg (new ++ [e]) name x ->
  claims seg new name x \/ vouched (seg ++ new ++ [e]) name x.
Proof.
  intros (a & b & E & H). destruct (snoc_cases b) as [->|(m & y & ->)].
  - rewrite app_nil_r in E; subst; right; exact H.
  - rewrite app_assoc in E; apply app_inj_tail in E; destruct E as [E _].
    left; exists a, m; auto.
Qed.
(** Appending an entry that is not a block adds no claim. *)
Lemma claims_quiet seg new e name x : (forall ts q off z, e <> LBlock ts q off z) ->
  claims seg (new ++ [e]) name x -> claims seg new name x.
Proof.
  intros He H; apply claims_snoc in H; destruct H as [H|H]; [exact H|].
  destruct H as (q & z & post & I & L). rewrite app_assoc in I.
  apply incarnation_snoc in I. destruct I as [[-> _]|(Hn & p0 & -> & I)].
  - destruct L as (ts & off & sz & [] & _).
  - apply claims_now; exists q, z, p0; split; [exact I|].
    destruct L as (ts & off & sz & Hin & Hx). apply in_app_iff in Hin.
    destruct Hin as [Hin|[E|[]]]; [exists ts, off, sz; auto|]. exfalso; exact (He _ _ _ _ E).
Qed.
Lemma claims_block seg new ts q off z name x :
  claims seg (new ++ [LBlock ts q off z]) name x ->
  claims seg new name x \/
  (off <= x < off + z /\ exists sz post, incarnation (seg ++ new) q name sz post).
Proof.
  intros H; apply claims_snoc in H; destruct H as [H|H]; [left; exact H|].
  destruct H as (q' & sz & post & I & L). rewrite app_assoc in I.
  apply incarnation_snoc in I. destruct I as [[-> _]|(Hn & p0 & -> & I)].
  - destruct L as (ts' & off' & sz' & [] & _).
  - destruct L as (ts' & off' & sz' & Hin & Hx). apply in_app_iff in Hin.
    destruct Hin as [Hin|[E|[]]].
    + left; apply claims_now; exists q', sz, p0; split; [exact I|exists ts', off', sz'; auto].
    + injection E as -> -> -> ->. right; eauto.
Qed.
Lemma incarnation_quiet seg new e q name z post :
  (forall ts n s, e <> LCreate ts n q s) ->
  incarnation (seg ++ new ++ [e]) q name z post -> exists p0, incarnation (seg ++ new) q name z p0.
Proof.
  intros He I. rewrite app_assoc in I. apply incarnation_snoc in I.
  destruct I as [[_ [ts E]]|(_ & p0 & _ & I)]; [exfalso; exact (He _ _ _ E)|eauto].
Qed.

(** ---- the manager ---- *)
Lemma emplace_ok e d m : slice d 0 (zlen (entry_bytes e)) = entry_bytes e ->
  emplace_entry m (zlen (entry_bytes e), d) =
  Ret (tm_with_entries m (tm_entries m ++ [entry_bytes e])).
Proof.
  intros S; unfold emplace_entry; cbn [fst snd].
  destruct (Z.ltb_spec (zlen (entry_bytes e)) 0); [pose proof (zlen_nonneg (entry_bytes e)); lia|].
  rewrite S; reflexivity.
Qed.
Lemma logs_add es new m e : logs es new m ->
  logs es (new ++ [e]) (tm_with_entries m (tm_entries m ++ [entry_bytes e])).
Proof.
  intros (Ho & Hh & fl & un & E & H & Eu); split; [exact Ho|]; split; [exact Hh|].
  exists fl, (un ++ [e]); rewrite app_assoc, <- E; split; [reflexivity|]; split; [exact H|].
  cbn [tm_entries tm_with_entries]; rewrite map_app, Eu; reflexivity.
Qed.
Ltac add_with e :=
  intros (Ho & Hh & R) Ok;
  destruct (write_entry e (proj1 Ok) (proj2 Ok)) as (d & E & S); [intros; discriminate|];
  cbn [encode_of] in E;
  unfold addFileCreationEntry, addBlockWriteEntry, addFileResizeEntry, addFileInvalidationEntry;
  rewrite Ho, ?Hh; cbn [negb orb]; rewrite E; cbn [obind];
  rewrite (emplace_ok e d _ S); eexists; split; [reflexivity|];
  apply logs_add; split; [exact Ho|split; [exact Hh|exact R]].
Lemma add_create es new m ts n q z : logs es new m -> entry_ok (LCreate ts n q z) ->
  exists m', addFileCreationEntry ts n q z m = Ret m' /\ logs es (new ++ [LCreate ts n q z]) m'.
Proof. add_with (LCreate ts n q z). Qed.
Lemma add_block es new m ts q o z : logs es new m -> entry_ok (LBlock ts q o z) ->
  exists m', addBlockWriteEntry ts q o z m = Ret m' /\ logs es (new ++ [LBlock ts q o z]) m'.
Proof. add_with (LBlock ts q o z). Qed.
Lemma add_resize es new m ts q z : logs es new m -> entry_ok (LResize ts q z) ->
  exists m', addFileResizeEntry ts q z m = Ret m' /\ logs es (new ++ [LResize ts q z]) m'.
Proof. add_with (LResize ts q z). Qed.
Lemma add_inval es new m ts q : logs es new m -> entry_ok (LInval ts q) ->
  exists m', addFileInvalidationEntry ts q m = Ret m' /\ logs es (new ++ [LInval ts q]) m'.
Proof. add_with (LInval ts q). Qed.
Lemma logs_flush es new m : logs es new m -> logs es new (writeEntries m).
Proof.
  intros (Ho & Hh & fl & un & E & [H1 H2] & Eu); split; [exact Ho|]; split; [exact Hh|].
  exists new, []; rewrite app_nil_r; split; [reflexivity|]; split; [|reflexivity].
  unfold writeEntries; cbn [tm_file tm_with_entries tm_with_file].
  destruct (tm_file m) as [fd fp]; cbn [lf_data lf_pos] in H1, H2; subst fd fp.
  rewrite Eu, concat_entries, fwrite_end; unfold holds; cbn [lf_data lf_pos].
  subst new; rewrite app_assoc, (log_bytes_app (es ++ fl)); auto.
Qed.

(** ---- the disk ---- *)
Lemma rd_bound {A} (l : list A) x v : rd l x = Some v -> 0 <= x < zlen l.
Proof.
  unfold rd, zlen; destruct (Z.ltb_spec x 0); [discriminate|].
  intros E. assert (nth_error l (Z.to_nat x) <> None) by congruence.
  apply nth_error_Some in H0; lia.
Qed.
Lemma nth_firstn {A} (l : list A) n k : (k < n)%nat -> nth_error (firstn n l) k = nth_error l k.
Proof.
  revert n k; induction l as [|a l IH]; intros [|n] [|k] H; cbn; try lia; auto.
  apply IH; lia.
Qed.
Lemma truncate_keeps f n x v : rd f x = Some v -> x < n -> rd (file_truncate f n) x = Some v.
Proof.
  intros E H. pose proof (rd_bound _ _ _ E) as B. unfold file_truncate.
  unfold rd in *. destruct (Z.ltb_spec x 0); [lia|]. unfold zlen in B.
  rewrite nth_firstn, nth_error_app1 by lia; exact E.
Qed.
Lemma truncate_len f n : 0 <= n -> zlen (file_truncate f n) = n.
Proof.
  intros H; unfold file_truncate, zlen. rewrite firstn_length, app_length, repeat_length; lia.
Qed.
Lemma cut_len c size f : 0 <= size -> c_prealloc c = true -> zlen (cut_size c size f) <= size.
Proof.
  intros H Hp; unfold cut_size; rewrite Hp.
  destruct (Z.ltb_spec size (zlen f)); [rewrite truncate_len; lia|lia].
Qed.
Lemma cut_keeps c size f x v : 0 <= size -> c_prealloc c = true -> x < size -> rd f x = Some v ->
  rd (cut_size c size f) x = Some v.
Proof.
  intros H Hp Hx E; unfold cut_size; rewrite Hp.
  destruct (size <? zlen f); [apply truncate_keeps; assumption|exact E].
Qed.
Lemma cut_id c size f : zlen f <= size -> cut_size c size f = f.
Proof. intros H; unfold cut_size; destruct (Z.ltb_spec size (zlen f)); [lia|reflexivity]. Qed.
Lemma grow_len c size f : 0 <= size -> zlen (grow_size c size f) <= Z.max (zlen f) size.
Proof.
  intros H; unfold grow_size, file_allocate. destruct (_ || _); [lia|].
  destruct (Z.ltb_spec (zlen f) size); [rewrite truncate_len; lia|lia].
Qed.
Lemma grow_keeps c size f x v : rd f x = Some v -> rd (grow_size c size f) x = Some v.
Proof.
  intros E; pose proof (rd_bound _ _ _ E). unfold grow_size, file_allocate.
  destruct (_ || _); [exact E|]. destruct (Z.ltb_spec (zlen f) size); [|exact E].
  apply truncate_keeps; [exact E|lia].
Qed.
Lemma put_keeps f pos bs x v : 0 <= pos -> x < pos \/ pos + zlen bs <= x -> rd f x = Some v ->
  rd (file_put f pos bs) x = Some v.
Proof.
  intros Hp Hx E; pose proof (rd_bound _ _ _ E). rewrite <- E.
  apply (put_unchanged f pos bs (pos + zlen bs)); lia.
Qed.
Lemma put_len f pos bs : 0 <= pos -> zlen (file_put f pos bs) <= Z.max (zlen f) (pos + zlen bs).
Proof.
  intros Hp; pose proof (put_grown f pos bs (pos + zlen bs) Hp (Z.le_refl _)) as [H _]; lia.
Qed.
Lemma right_at src bs : forall pos x, right_bytes src pos bs = true -> pos <= x < pos + zlen bs ->
  rd bs (x - pos) = Some (src x).
Proof.
  induction bs as [|b bs IH]; intros pos x H Hx; [unfold zlen in Hx; cbn in Hx; lia|].
  cbn [right_bytes] in H; apply andb_true_iff in H; destruct H as [H1 H2]; apply Z.eqb_eq in H1.
  assert (Hl : zlen (b :: bs) = 1 + zlen bs) by (unfold zlen; cbn [length]; lia).
  unfold rd; destruct (Z.ltb_spec (x - pos) 0); [lia|].
  destruct (Z.eq_dec x pos) as [->|Hn].
  - rewrite Z.sub_diag; cbn; congruence.
  - replace (Z.to_nat (x - pos)) with (S (Z.to_nat (x - (pos + 1)))) by lia. cbn [nth_error].
    assert (Hx' : pos + 1 <= x < pos + 1 + zlen bs) by lia.
    pose proof (IH _ _ H2 Hx') as E. unfold rd in E.
    destruct (Z.ltb_spec (x - (pos + 1)) 0); [lia|exact E].
Qed.
Lemma put_right src f pos bs x : 0 <= pos -> right_bytes src pos bs = true ->
  pos <= x < pos + zlen bs -> rd (file_put f pos bs) x = Some (src x).
Proof.
  intros Hp Hr Hx. pose proof (put_holds f pos bs Hp (x - pos) ltac:(lia)) as H.
  replace (pos + (x - pos)) with x in H by lia. rewrite H; apply right_at; assumption.
Qed.

(** ---- the invariant ---- *)
Section Session.
Context (c : ccfg) (p : fplans) (d0 : disk) (infos : list file_chunks) (es seg : list log_entry).

(** A file, if it is there, has the sender's bytes in [a, b). *)
Definition good (d : disk) (name : list Z) (a b : Z) : Prop :=
  forall f x, d name = Some f -> a <= x < b -> rd f x = Some (c_src c name x).
(** The claimed byte is right, or the file is being replaced by a shorter one
    and ends before it. *)
Definition kept (d : disk) (name : list Z) (x : Z) : Prop :=
  forall f, d name = Some f ->
    rd f x = Some (c_src c name x) \/
    exists q pl, p q = Some pl /\ pl_name pl = name /\ pl_alloc pl = EXISTS_TOO_LARGE /\
      pl_size pl <= x /\ zlen f <= pl_size pl.
Definition small (d : disk) (name : list Z) (size : Z) : Prop :=
  forall f, d name = Some f -> zlen f <= size.
Definition allocating (op : cop) : option block_details :=
  match op with OTrunc b | OAlloc b | OInval b | OCreate b => Some b | _ => None end.
Definition live (s : cstate) (b : block_details) : Prop :=
  planned p b /\ bd_alloc b <> TO_BE_DELETED /\ cs_map s (bd_seqId b) = Some AAllocated.
Definition op_ok (s : cstate) (op : cop) : Prop :=
  match op with
  | OIdle => True
  | OHeader b => planned p b
  | OTrunc b => planned p b /\ bd_alloc b <> TO_BE_DELETED /\ bd_alloc b <> EXISTS_CORRECT_SIZE /\
      cs_map s (bd_seqId b) = Some AInProgress /\
      (bd_alloc b = EXISTS_TOO_SMALL -> cs_disk s (bd_fileName b) = d0 (bd_fileName b))
  | OAlloc b | OInval b | OCreate b =>
      planned p b /\ bd_alloc b <> TO_BE_DELETED /\ bd_alloc b <> EXISTS_CORRECT_SIZE /\
      cs_map s (bd_seqId b) = Some AInProgress /\
      (bd_alloc b = EXISTS_TOO_LARGE -> small (cs_disk s) (bd_fileName b) (bd_fileSize b))
  | OWrite b n ok => live s b /\ 0 <= n <= bd_dataSize b /\
      (ok = true -> good (cs_disk s) (bd_fileName b) (bd_offset b) (bd_offset b + n)) /\
      (c_verify c = false -> ok = true)
  end.
Definition wait_ok (s : cstate) (w : block_details * bool) : Prop :=
  planned p (fst w) /\
  (bd_alloc (fst w) = TO_BE_DELETED \/
   (live s (fst w) /\
    (snd w = true -> good (cs_disk s) (bd_fileName (fst w)) (bd_offset (fst w))
                      (bd_offset (fst w) + bd_dataSize (fst w))) /\
    (c_verify c = false -> snd w = true))).
Definition thr_ok (s : cstate) (t : cthr) : Prop :=
  op_ok s (ct_op t) /\ Forall (wait_ok s) (ct_wait t).

Record cinv (new : list log_entry) (s : cstate) : Prop := {
  ci_log : logs es new (cs_log s);
  ci_new : Forall entry_ok new /\ Forall block_in_range new /\ Forall plain new;
  ci_data : forall name x, claims seg new name x -> kept (cs_disk s) name x;
  ci_none : forall q pl x, p q = Some pl -> pl_alloc pl = NOT_EXISTS ->
    cs_map s q <> Some AAllocated -> ~ claims seg new (pl_name pl) x;
  ci_name : forall q pl n z post, p q = Some pl -> pl_alloc pl <> TO_BE_DELETED ->
    cs_map s q = Some AAllocated \/ pl_alloc pl = EXISTS_CORRECT_SIZE \/ pl_alloc pl = EXISTS_TOO_SMALL ->
    incarnation (seg ++ new) q n z post -> n = pl_name pl;
  ci_small : forall q pl, p q = Some pl -> pl_alloc pl = EXISTS_TOO_SMALL -> cs_map s q = None ->
    cs_disk s (pl_name pl) = d0 (pl_name pl);
  ci_large : forall q pl, p q = Some pl -> pl_alloc pl = EXISTS_TOO_LARGE ->
    cs_map s q = Some AAllocated -> small (cs_disk s) (pl_name pl) (pl_size pl);
  ci_thr : forall i t, nth_error (cs_thr s) i = Some t -> thr_ok s t;
  ci_uniq : forall i j t u b b', nth_error (cs_thr s) i = Some t -> nth_error (cs_thr s) j = Some u ->
    allocating (ct_op t) = Some b -> allocating (ct_op u) = Some b' -> bd_seqId b = bd_seqId b' -> i = j;
  ci_marked : forall name x, claims seg new name x ->
    vouched seg name x \/ exists b, In b (cs_marked s) /\ covers b name x
}.

Hypothesis Pf : plan_fits c p d0 infos.

(** Two blocks of one file are of the same plan entry. *)
Lemma same_file b q pl : planned p b -> p q = Some pl -> pl_name pl = bd_fileName b ->
  q = bd_seqId b /\ pl = {| pl_name := bd_fileName b; pl_size := bd_fileSize b;
                           pl_alloc := bd_alloc b; pl_prev := bd_prevSeqId b |}.
Proof.
  intros [Hb _] Hq Hn. assert (q = bd_seqId b) as ->.
  { apply (pf_once _ _ _ _ Pf _ _ _ _ Hq Hb); exact Hn. }
  split; [reflexivity|congruence].
Qed.
Lemma same_block b b' : planned p b -> planned p b' -> bd_fileName b = bd_fileName b' ->
  bd_seqId b = bd_seqId b' /\ bd_fileSize b = bd_fileSize b' /\ bd_alloc b = bd_alloc b'.
Proof.
  intros H [H' _] E. destruct (same_file b _ _ H H' ltac:(symmetry; exact E)) as [E1 E2].
  injection E2; auto.
Qed.
End Session.
