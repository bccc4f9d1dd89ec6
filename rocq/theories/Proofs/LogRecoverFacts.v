(** What recovery reports, in terms of the logged entries. *)
From Coq Require Import Sorted.
From Verif Require Export Proofs.LogParseFacts Proofs.UriFacts.

Local Opaque Z.pow.

(** ---- maps ---- *)
Lemma zfind_emplace {A} k k' (a : A) m : zfind k' m = None ->
  zfind k (zemplace k' a m) = if k =? k' then Some a else zfind k m.
Proof.
  induction m as [|[q x] m IH]; cbn [zfind zemplace]; intros H.
  - reflexivity.
  - destruct (Z.eqb_spec k' q) as [->|Hne]; [discriminate|].
    destruct (k' <? q); cbn [zfind].
    + destruct (Z.eqb_spec k k'); reflexivity.
    + destruct (Z.eqb_spec k q) as [->|Hk].
      * destruct (Z.eqb_spec q k'); [congruence|reflexivity].
      * apply IH, H.
Qed.
Lemma zfind_emplace_some {A} k (a : A) m : zfind k (zemplace k a m) <> None.
Proof.
  induction m as [|[q x] m IH]; cbn [zfind zemplace].
  - rewrite Z.eqb_refl; discriminate.
  - destruct (Z.eqb_spec k q) as [Hq|Hq].
    + subst q; cbn [zfind]; rewrite Z.eqb_refl; discriminate.
    + destruct (k <? q); cbn [zfind].
      * rewrite Z.eqb_refl; discriminate.
      * destruct (Z.eqb_spec k q); [discriminate|exact IH].
Qed.
Lemma zfind_emplace_other {A} k k' (a : A) m : k <> k' ->
  zfind k (zemplace k' a m) = zfind k m.
Proof.
  intros Hk; induction m as [|[q x] m IH]; cbn [zfind zemplace].
  - destruct (Z.eqb_spec k k'); [contradiction|reflexivity].
  - destruct (Z.eqb_spec k' q) as [Hq|Hq]; [reflexivity|].
    destruct (k' <? q); cbn [zfind].
    + destruct (Z.eqb_spec k k'); [contradiction|reflexivity].
    + destruct (k =? q); [reflexivity|exact IH].
Qed.
Lemma zfind_assign {A} k k' (a : A) m :
  zfind k (zassign k' a m) = if k =? k' then match zfind k m with None => None | Some _ => Some a end
                             else zfind k m.
Proof.
  induction m as [|[q x] m IH]; cbn [zfind zassign map fst].
  - destruct (k =? k'); reflexivity.
  - unfold zassign in IH; destruct (Z.eqb_spec q k') as [->|Hq]; cbn [zfind].
    + destruct (Z.eqb_spec k k'); [reflexivity|exact IH].
    + destruct (Z.eqb_spec k q) as [->|Hk].
      * destruct (Z.eqb_spec q k'); [contradiction|reflexivity].
      * exact IH.
Qed.
Lemma zfind_erase {A} k k' (m : list (Z * A)) :
  zfind k (zerase k' m) = if k =? k' then None else zfind k m.
Proof.
  induction m as [|[q x] m IH]; cbn [zfind zerase filter fst].
  - destruct (k =? k'); reflexivity.
  - unfold zerase in IH; destruct (Z.eqb_spec q k') as [->|Hq]; cbn [negb zfind].
    + rewrite IH; destruct (Z.eqb_spec k k'); reflexivity.
    + destruct (Z.eqb_spec k q) as [->|Hk].
      * destruct (Z.eqb_spec q k'); [contradiction|reflexivity].
      * exact IH.
Qed.
Lemma zmem_insert k k' s : zmem k (zinsert k' s) = (k =? k') || zmem k s.
Proof.
  induction s as [|q s IH]; cbn [zinsert zmem existsb].
  - reflexivity.
  - destruct (Z.eqb_spec k' q) as [->|Hq]; cbn [existsb].
    + destruct (k =? q); reflexivity.
    + destruct (k' <? q); cbn [existsb]; [reflexivity|].
      unfold zmem in IH; rewrite IH; destruct (k =? q), (k =? k'); reflexivity.
Qed.
Lemma zmem_remove k k' s : zmem k (zremove k' s) = negb (k =? k') && zmem k s.
Proof.
  induction s as [|q s IH]; cbn [zremove filter zmem existsb].
  - rewrite andb_false_r; reflexivity.
  - unfold zremove, zmem in IH; destruct (Z.eqb_spec q k') as [->|Hq]; cbn [negb existsb].
    + rewrite IH; destruct (Z.eqb_spec k k') as [->|Hk]; reflexivity.
    + rewrite IH; destruct (Z.eqb_spec k q) as [->|Hk]; cbn [orb].
      * destruct (Z.eqb_spec q k'); [contradiction|reflexivity].
      * reflexivity.
Qed.
Lemma zmem_In k s : zmem k s = true <-> In k s.
Proof.
  unfold zmem; rewrite existsb_exists; split.
  - intros [x [H E]]; apply Z.eqb_eq in E; subst; exact H.
  - intros H; exists k; split; [exact H|apply Z.eqb_refl].
Qed.

Definition ksorted {A} (m : list (Z * A)) : Prop := StronglySorted Z.lt (map fst m).
Lemma ksorted_emplace {A} k (a : A) m : ksorted m -> ksorted (zemplace k a m).
Proof.
  unfold ksorted; induction m as [|[q x] m IH]; cbn [zemplace map fst]; intros H.
  - repeat constructor.
  - inversion H as [|? ? H1 H2]; subst.
    destruct (Z.eqb_spec k q) as [->|Hq]; [exact H|].
    destruct (Z.ltb_spec k q); cbn [map fst].
    + constructor; [exact H|]; constructor; [lia|].
      eapply Forall_impl; [|exact H2]; intros y Hy; lia.
    + constructor; [auto|].
      assert (G : forall y, In y (map fst (zemplace k a m)) -> y = k \/ In y (map fst m)).
      { clear; induction m as [|[q x] m IH]; cbn [zemplace map fst In]; intros y.
        - intuition.
        - destruct (k =? q); [cbn [map fst In]; intuition|].
          destruct (k <? q); cbn [map fst In]; [intuition|].
          intros [->|H]; [intuition|]. apply IH in H; intuition. }
      apply Forall_forall; intros y Hy; apply G in Hy.
      destruct Hy as [->|Hy]; [lia|]; rewrite Forall_forall in H2; auto.
Qed.
Lemma ksorted_assign {A} k (a : A) m : ksorted m -> ksorted (zassign k a m).
Proof.
  unfold ksorted, zassign; rewrite map_map.
  replace (map (fun x => fst (if fst x =? k then (fst x, a) else x)) m) with (map fst m); [auto|].
  apply map_ext; intros [q x]; cbn [fst]; destruct (q =? k); reflexivity.
Qed.
Lemma ksorted_erase {A} k (m : list (Z * A)) : ksorted m -> ksorted (zerase k m).
Proof.
  unfold ksorted, zerase; induction m as [|[q x] m IH]; cbn [filter map fst]; intros H; [exact H|].
  inversion H as [|? ? H1 H2]; subst.
  destruct (negb (q =? k)); cbn [map fst]; [|auto].
  constructor; [auto|].
  apply Forall_forall; intros y Hy; rewrite Forall_forall in H2; apply H2.
  apply in_map_iff in Hy; destruct Hy as [[q' x'] [<- Hy]]; apply filter_In in Hy.
  apply in_map; tauto.
Qed.
Lemma zfind_In {A} k (a : A) m : zfind k m = Some a -> In (k, a) m.
Proof.
  induction m as [|[q x] m IH]; cbn [zfind]; [discriminate|].
  destruct (Z.eqb_spec k q) as [->|Hk].
  - intros E; injection E as ->; left; reflexivity.
  - intros E; right; auto.
Qed.
Lemma In_zfind {A} k (a : A) m : ksorted m -> In (k, a) m -> zfind k m = Some a.
Proof.
  unfold ksorted; induction m as [|[q x] m IH]; cbn [zfind map fst]; intros Hs Hin; [destruct Hin|destruct Hin as [E|H]].
  - injection E as -> ->; rewrite Z.eqb_refl; reflexivity.
  - inversion Hs as [|? ? H1 H2]; subst.
    destruct (Z.eqb_spec k q) as [->|Hk]; [|auto].
    rewrite Forall_forall in H2; specialize (H2 q (in_map fst _ _ H)); lia.
Qed.

(** ---- one entry, decoded ---- *)
Definition matchb (o : popts) (rid : list Z) (c : Z) : bool :=
  str_eqb (po_rid o) rid && (po_config o =? c).

Definition estep (o : popts) (e : log_entry) (st : Z) (s : pstate) : outcome (Z * pstate) :=
  match e with
  | LHeader ts v rid ip c =>
      let s1 := {| p_hdr := p_hdr s; p_files := []; p_sizes := [];
                   p_invalid := []; p_ip := ip |} in
      if negb (v =? 2) || (zlen ip =? 0) then
        Ret (INVALID_LOG, {| p_hdr := p_hdr s; p_files := p_files s; p_sizes := p_sizes s;
                             p_invalid := p_invalid s; p_ip := ip |})
      else if matchb o rid c then
        Ret (OK, {| p_hdr := true; p_files := p_files s; p_sizes := p_sizes s;
                    p_invalid := p_invalid s; p_ip := ip |})
      else Ret (INCONSISTENT_DIRECTORY, s1)
  | LDirInval ts =>
      if st =? INCONSISTENT_DIRECTORY then Ret (st, s)
      else Ret (INCONSISTENT_DIRECTORY,
                {| p_hdr := false; p_files := []; p_sizes := []; p_invalid := []; p_ip := p_ip s |})
  | LCreate ts name seq size =>
      if st =? INCONSISTENT_DIRECTORY then Ret (st, s)
      else if negb (p_hdr s) || po_dirTree o then Ret (INVALID_LOG, s)
      else if (match zfind seq (p_files s) with Some _ => true | None => false end)
              || zmem seq (p_invalid s) then Ret (INVALID_LOG, s)
      else
        let invalid :=
          Ret (OK, {| p_hdr := p_hdr s; p_files := p_files s; p_sizes := p_sizes s;
                      p_invalid := zinsert seq (p_invalid s); p_ip := p_ip s |}) in
        match po_disk o name with
        | None => invalid
        | Some st_size =>
            if negb (po_prealloc o) || (size <=? st_size)
            then Ret (OK, {| p_hdr := p_hdr s;
                   p_files := zemplace seq {| fc_seqId := seq; fc_fileName := name;
                                fc_fileSize := st_size; fc_chunks := [] |} (p_files s);
                   p_sizes := zemplace seq size (p_sizes s);
                   p_invalid := p_invalid s; p_ip := p_ip s |})
            else invalid
        end
  | LResize ts seq size =>
      if st =? INCONSISTENT_DIRECTORY then Ret (st, s)
      else if negb (p_hdr s) || po_dirTree o then Ret (INVALID_LOG, s)
      else match zfind seq (p_files s) with
      | None => Ret (INVALID_LOG, s)
      | Some f =>
          match zfind seq (p_sizes s) with
          | None => Crash
          | Some old =>
              if size <? old then Ret (INVALID_LOG, s)
              else if po_prealloc o && (fc_fileSize f <? size) then Ret (INVALID_LOG, s)
              else Ret (OK, {| p_hdr := p_hdr s; p_files := p_files s;
                               p_sizes := zassign seq size (p_sizes s);
                               p_invalid := p_invalid s; p_ip := p_ip s |})
          end
      end
  | LBlock ts seq off size =>
      if st =? INCONSISTENT_DIRECTORY then Ret (st, s)
      else if negb (p_hdr s) || po_dirTree o then Ret (INVALID_LOG, s)
      else if zmem seq (p_invalid s) then Ret (OK, s)
      else match zfind seq (p_files s) with
      | None => Ret (INVALID_LOG, s)
      | Some f =>
          if 2 ^ 63 <=? off + size then Undef
          else if fc_fileSize f <? off + size then Ret (INVALID_LOG, s)
          else obind (mkInterval off (off + size)) (fun c =>
               Ret (OK, {| p_hdr := p_hdr s;
                 p_files := zassign seq {| fc_seqId := fc_seqId f; fc_fileName := fc_fileName f;
                              fc_fileSize := fc_fileSize f;
                              fc_chunks := fc_chunks f ++ [c] |} (p_files s);
                 p_sizes := p_sizes s; p_invalid := p_invalid s; p_ip := p_ip s |}))
      end
  | LInval ts seq =>
      if st =? INCONSISTENT_DIRECTORY then Ret (st, s)
      else if negb (p_hdr s) || po_dirTree o then Ret (INVALID_LOG, s)
      else if (match zfind seq (p_files s) with Some _ => false | None => true end)
              && negb (zmem seq (p_invalid s)) then Ret (INVALID_LOG, s)
      else Ret (OK, {| p_hdr := p_hdr s; p_files := zerase seq (p_files s);
                       p_sizes := p_sizes s; p_invalid := zremove seq (p_invalid s);
                       p_ip := p_ip s |})
  end.

Lemma decode_body e t b : entry_fields_ok e -> entry_body e = t :: b ->
  decode_of t b = Ret (Some e).
Proof. intros H E; destruct (decode_exact e t b H E) as [H1 _]; exact H1. Qed.

Ltac omap_inv H x :=
  unfold omap in H; match type of H with
  | obind ?m _ = _ => destruct m as [[x|]| | ]; cbn [obind] in H; try discriminate H
  end.

Lemma parse_body o e st s : entry_ok e -> po_parseOnly o = false ->
  parseEntry o (entry_body e) st s = estep o e st s.
Proof.
  intros [Hf Hl] Hp.
  destruct (entry_body_cons e) as (t & b & E & _).
  pose proof (decode_body e t b Hf E) as D.
  unfold entry_bytes in Hl; rewrite zlen_frame, E, zlen_cons in Hl.
  rewrite E; unfold parseEntry.
  destruct e as [ts v rid ip c|ts name seq size|ts seq off size|ts seq|ts seq size|ts];
    cbn [entry_body] in E; injection E as <- <-;
    unfold decode_of in D; cbn [Z.eqb Pos.eqb] in D;
    unfold HEADER, FILE_CREATION, BLOCK_WRITE, FILE_RESIZE, FILE_INVALIDATION,
      DIRECTORY_INVALIDATION; cbn [Z.eqb Pos.eqb negb];
    rewrite ?andb_false_r, ?andb_true_r.
  - unfold processHeaderEntry.
    match goal with |- context [kMaxEntryLength - 1 <? ?z] =>
      destruct (Z.ltb_spec (kMaxEntryLength - 1) z) as [Hbad|_] end;
      [unfold kMaxEntryLength in Hbad; lia|].
    omap_inv D x; destruct x as [[[[ts' v'] rid'] ip'] c']; injection D as -> -> -> -> ->.
    cbn [obind estep]; unfold matchb, WLOG_VERSION; rewrite Hp.
    destruct (negb (v =? 2)) eqn:Ev; cbn [orb]; [reflexivity|].
    destruct (zlen ip =? 0); [reflexivity|].
    destruct (str_eqb (po_rid o) rid); cbn [negb andb]; [|reflexivity].
    destruct (po_config o =? c); reflexivity.
  - cbn [estep]; destruct (st =? INCONSISTENT_DIRECTORY); [reflexivity|].
    unfold processFileCreationEntry; rewrite Hp.
    destruct (p_hdr s); cbn [negb orb]; [|reflexivity].
    omap_inv D x; destruct x as [[[ts' name'] seq'] size']; injection D as -> -> -> ->.
    cbn [obind]; destruct (po_dirTree o); [reflexivity|].
    match goal with |- context [if ?c then Ret (INVALID_LOG, s) else _] => destruct c end; [reflexivity|].
    destruct (po_disk o name); [|reflexivity].
    destruct (negb (po_prealloc o) || (size <=? z)); reflexivity.
  - cbn [estep]; destruct (st =? INCONSISTENT_DIRECTORY); [reflexivity|].
    unfold processBlockWriteEntry; rewrite Hp.
    destruct (p_hdr s); cbn [negb orb]; [|reflexivity].
    omap_inv D x; destruct x as [[[ts' seq'] off'] size']; injection D as -> -> -> ->.
    cbn [obind]; destruct (po_dirTree o); [reflexivity|].
    destruct (zmem seq (p_invalid s)); [reflexivity|].
    destruct (zfind seq (p_files s)); [|reflexivity].
    destruct (2 ^ 63 <=? off + size); [reflexivity|].
    destruct (fc_fileSize f <? off + size); [reflexivity|].
    destruct (mkInterval off (off + size)); reflexivity.
  - cbn [estep]; destruct (st =? INCONSISTENT_DIRECTORY); [reflexivity|].
    unfold processFileInvalidationEntry; rewrite Hp.
    destruct (p_hdr s); cbn [negb orb]; [|reflexivity].
    omap_inv D x; destruct x as [ts' seq']; injection D as -> ->.
    cbn [obind]; destruct (po_dirTree o); [reflexivity|].
    match goal with |- context [if ?c then Ret (INVALID_LOG, s) else _] => destruct c end; reflexivity.
  - cbn [estep]; destruct (st =? INCONSISTENT_DIRECTORY); [reflexivity|].
    unfold processFileResizeEntry; rewrite Hp.
    destruct (p_hdr s); cbn [negb orb]; [|reflexivity].
    omap_inv D x; destruct x as [[ts' seq'] size']; injection D as -> -> ->.
    cbn [obind]; destruct (po_dirTree o); [reflexivity|].
    destruct (zfind seq (p_files s)); [|reflexivity].
    destruct (zfind seq (p_sizes s)); [|reflexivity].
    destruct (size <? z); [reflexivity|].
    destruct (po_prealloc o && (fc_fileSize f <? size)); reflexivity.
  - cbn [estep]; destruct (st =? INCONSISTENT_DIRECTORY); [reflexivity|].
    unfold processDirectoryInvalidationEntry; rewrite Hp.
    omap_inv D x; injection D as ->; reflexivity.
Qed.

(** ---- incarnations and appended entries ---- *)
Lemma snoc_cases {A} (l : list A) : l = [] \/ exists m x, l = m ++ [x].
Proof. destruct l using rev_ind; [left; reflexivity|right; eauto]. Qed.

Lemma incarnation_snoc seg e seq name size post :
  incarnation (seg ++ [e]) seq name size post <->
  (post = [] /\ exists ts, e = LCreate ts name seq size) \/
  (~ ends seq e /\ exists post0, post = post0 ++ [e] /\ incarnation seg seq name size post0).
Proof.
  split.
  - intros (pre & ts & E & Hf).
    destruct (snoc_cases post) as [->|(p0 & x & ->)].
    + left; split; [reflexivity|]; exists ts.
      apply app_inj_tail in E; tauto.
    + rewrite app_comm_cons, app_assoc in E; apply app_inj_tail in E; destruct E as [E <-].
      apply Forall_app in Hf; destruct Hf as [Hf Hx]; inversion Hx; subst.
      right; split; [assumption|]; exists p0; split; [reflexivity|].
      exists pre, ts; split; [reflexivity|exact Hf].
  - intros [[-> [ts ->]]|(He & p0 & -> & pre & ts & -> & Hf)].
    + exists seg, ts; split; [reflexivity|constructor].
    + exists pre, ts; split; [rewrite <- app_assoc; reflexivity|].
      apply Forall_app; split; [exact Hf|constructor; [exact He|constructor]].
Qed.

Lemma incarnation_unique seg : forall seq n1 z1 p1 n2 z2 p2,
  incarnation seg seq n1 z1 p1 -> incarnation seg seq n2 z2 p2 ->
  n1 = n2 /\ z1 = z2 /\ p1 = p2.
Proof.
  induction seg as [|e seg IH] using rev_ind; intros seq n1 z1 p1 n2 z2 p2 H1 H2.
  - destruct H1 as (pre & ts & E & _); destruct pre; discriminate.
  - apply incarnation_snoc in H1, H2.
    destruct H1 as [[-> [t1 E1]]|(He & q1 & -> & H1)], H2 as [[-> [t2 E2]]|(He' & q2 & -> & H2)].
    + rewrite E1 in E2; injection E2; auto.
    + exfalso; apply He'; rewrite E1; reflexivity.
    + exfalso; apply He; rewrite E2; reflexivity.
    + destruct (IH _ _ _ _ _ _ _ H1 H2) as (-> & -> & ->); auto.
Qed.

(** Pieces logged for a sequence id. *)
Definition piece (seq : Z) (e : log_entry) : list interval :=
  match e with
  | LBlock _ q off size => if q =? seq then [{| iv_start := off; iv_end := off + size |}] else []
  | _ => []
  end.
Definition pieces (seq : Z) (post : list log_entry) : list interval := flat_map (piece seq) post.
Lemma pieces_snoc seq post e : pieces seq (post ++ [e]) = pieces seq post ++ piece seq e.
Proof. unfold pieces; rewrite flat_map_app; cbn [flat_map]; rewrite app_nil_r; reflexivity. Qed.

Lemma covered_pieces seq post x : covered (pieces seq post) x <-> logged post seq x.
Proof.
  unfold covered, logged, pieces; split.
  - intros (c & Hc & Hx); apply in_flat_map in Hc; destruct Hc as (e & He & Hc).
    destruct e; cbn [piece] in Hc; try contradiction.
    destruct (Z.eqb_spec seq0 seq) as [->|]; [|contradiction].
    destruct Hc as [<-|[]]; cbn [iv_start iv_end] in Hx; eauto.
  - intros (ts & off & size & Hin & Hx).
    exists {| iv_start := off; iv_end := off + size |}; split; [|exact Hx].
    apply in_flat_map; eexists; split; [exact Hin|]; cbn [piece]; rewrite Z.eqb_refl; left; reflexivity.
Qed.

(** ---- the invariant ---- *)
Definition within (d : Z) (c : interval) : Prop := 0 <= iv_start c <= iv_end c /\ iv_end c <= d.

Record describes (o : popts) (seg : list log_entry) (s : pstate) : Prop := {
  d_files : forall seq f, zfind seq (p_files s) = Some f ->
     exists name size post, incarnation seg seq name size post /\
       present o name size (fc_fileSize f) /\ fc_seqId f = seq /\ fc_fileName f = name /\
       fc_chunks f = pieces seq post /\ Forall (within (fc_fileSize f)) (fc_chunks f);
  d_invalid : forall seq, zmem seq (p_invalid s) = true ->
     exists name size post, incarnation seg seq name size post /\
       forall d, ~ present o name size d;
  d_all : forall seq name size post, incarnation seg seq name size post ->
     zfind seq (p_files s) <> None \/ zmem seq (p_invalid s) = true;
  d_sizes : forall seq, zfind seq (p_files s) <> None -> zfind seq (p_sizes s) <> None;
  d_sorted : ksorted (p_files s)
}.

Lemma describes_init o ip : describes o [] (p_init ip).
Proof.
  split; cbn [p_init p_files p_invalid p_sizes]; try (intros; discriminate).
  - intros seq name size post (pre & ts & E & _); destruct pre; discriminate.
  - intros seq H; exfalso; apply H; reflexivity.
  - constructor.
Qed.

Lemma describes_disjoint o seg s seq : describes o seg s ->
  zfind seq (p_files s) <> None -> zmem seq (p_invalid s) = false.
Proof.
  intros D H; destruct (zfind seq (p_files s)) as [f|] eqn:E; [|congruence].
  destruct (zmem seq (p_invalid s)) eqn:Em; [|reflexivity].
  destruct (d_files _ _ _ D _ _ E) as (n1 & z1 & p1 & I1 & P1 & _).
  destruct (d_invalid _ _ _ D _ Em) as (n2 & z2 & p2 & I2 & P2).
  destruct (incarnation_unique _ _ _ _ _ _ _ _ I1 I2) as (-> & -> & ->).
  exfalso; exact (P2 _ P1).
Qed.

(** Entries that say nothing about any file. *)
Lemma describes_neutral o seg s e s' :
  describes o seg s -> (forall seq, ~ ends seq e) -> (forall seq, piece seq e = []) ->
  p_files s' = p_files s -> p_invalid s' = p_invalid s ->
  (forall seq, zfind seq (p_sizes s) <> None -> zfind seq (p_sizes s') <> None) ->
  describes o (seg ++ [e]) s'.
Proof.
  intros D He Hp Hf Hi Hs; split.
  - intros seq f; rewrite Hf; intros E.
    destruct (d_files _ _ _ D _ _ E) as (n & z & p & I & P & E1 & E2 & E3 & E4).
    exists n, z, (p ++ [e]); split; [apply incarnation_snoc; right; split; eauto|].
    rewrite pieces_snoc, Hp, app_nil_r; auto.
  - intros seq; rewrite Hi; intros E.
    destruct (d_invalid _ _ _ D _ E) as (n & z & p & I & P).
    exists n, z, (p ++ [e]); split; [apply incarnation_snoc; right; split; eauto|exact P].
  - intros seq n z p I; rewrite Hf, Hi; apply incarnation_snoc in I.
    destruct I as [[_ [ts ->]]|(_ & p0 & _ & I)].
    + exfalso; apply (He seq); reflexivity.
    + exact (d_all _ _ _ D _ _ _ _ I).
  - intros seq; rewrite Hf; intros H; apply Hs, (d_sizes _ _ _ D), H.
  - rewrite Hf; exact (d_sorted _ _ _ D).
Qed.

Lemma describes_create_ok o seg s ts name seq size d :
  describes o seg s -> zfind seq (p_files s) = None -> zmem seq (p_invalid s) = false ->
  present o name size d ->
  describes o (seg ++ [LCreate ts name seq size])
    {| p_hdr := p_hdr s;
       p_files := zemplace seq {| fc_seqId := seq; fc_fileName := name;
                    fc_fileSize := d; fc_chunks := [] |} (p_files s);
       p_sizes := zemplace seq size (p_sizes s);
       p_invalid := p_invalid s; p_ip := p_ip s |}.
Proof.
  intros D Hn Hm HP; split; cbn [p_files p_sizes p_invalid].
  - intros q f; rewrite zfind_emplace by exact Hn.
    destruct (Z.eqb_spec q seq) as [->|Hq].
    + intros E; injection E as <-; exists name, size, [].
      split; [apply incarnation_snoc; left; split; eauto|].
      cbn [fc_fileSize fc_seqId fc_fileName fc_chunks].
      repeat (split; [auto|]); constructor.
    + intros E; destruct (d_files _ _ _ D _ _ E) as (n & z & p & I & P & E1 & E2 & E3 & E4).
      exists n, z, (p ++ [LCreate ts name seq size]); split.
      * apply incarnation_snoc; right; split; [cbn [ends]; congruence|eauto].
      * rewrite pieces_snoc; cbn [piece]; rewrite app_nil_r; auto.
  - intros q E; destruct (d_invalid _ _ _ D _ E) as (n & z & p & I & P).
    exists n, z, (p ++ [LCreate ts name seq size]); split; [|exact P].
    apply incarnation_snoc; right; split; [|eauto].
    cbn [ends]; intros ->; congruence.
  - intros q n z p I; rewrite zfind_emplace by exact Hn.
    destruct (Z.eqb_spec q seq) as [->|Hq]; [left; discriminate|].
    apply incarnation_snoc in I; destruct I as [[_ [t E]]|(_ & p0 & _ & I)].
    + injection E as _ _ E _; congruence.
    + exact (d_all _ _ _ D _ _ _ _ I).
  - intros q H; destruct (Z.eq_dec q seq) as [->|Hq]; [apply zfind_emplace_some|].
    rewrite zfind_emplace_other by exact Hq.
    rewrite zfind_emplace_other in H by exact Hq; exact (d_sizes _ _ _ D _ H).
  - apply ksorted_emplace, (d_sorted _ _ _ D).
Qed.

Lemma describes_create_bad o seg s ts name seq size :
  describes o seg s -> zfind seq (p_files s) = None -> zmem seq (p_invalid s) = false ->
  (forall d, ~ present o name size d) ->
  describes o (seg ++ [LCreate ts name seq size])
    {| p_hdr := p_hdr s; p_files := p_files s; p_sizes := p_sizes s;
       p_invalid := zinsert seq (p_invalid s); p_ip := p_ip s |}.
Proof.
  intros D Hn Hm HP; split; cbn [p_files p_sizes p_invalid].
  - intros q f E; assert (q <> seq) by congruence.
    destruct (d_files _ _ _ D _ _ E) as (n & z & p & I & P & E1 & E2 & E3 & E4).
    exists n, z, (p ++ [LCreate ts name seq size]); split.
    + apply incarnation_snoc; right; split; [cbn [ends]; congruence|eauto].
    + rewrite pieces_snoc; cbn [piece]; rewrite app_nil_r; auto.
  - intros q; rewrite zmem_insert; destruct (Z.eqb_spec q seq) as [->|Hq]; cbn [orb].
    + intros _; exists name, size, []; split; [|exact HP].
      apply incarnation_snoc; left; split; eauto.
    + intros E; destruct (d_invalid _ _ _ D _ E) as (n & z & p & I & P).
      exists n, z, (p ++ [LCreate ts name seq size]); split; [|exact P].
      apply incarnation_snoc; right; split; [cbn [ends]; congruence|eauto].
  - intros q n z p I; rewrite zmem_insert.
    destruct (Z.eqb_spec q seq) as [->|Hq]; cbn [orb]; [right; reflexivity|].
    apply incarnation_snoc in I; destruct I as [[_ [t E]]|(_ & p0 & _ & I)].
    + injection E as _ _ E _; congruence.
    + exact (d_all _ _ _ D _ _ _ _ I).
  - exact (d_sizes _ _ _ D).
  - exact (d_sorted _ _ _ D).
Qed.

Lemma describes_block o seg s ts seq off size f :
  describes o seg s -> zfind seq (p_files s) = Some f ->
  0 <= off -> 0 <= size -> off + size <= fc_fileSize f ->
  describes o (seg ++ [LBlock ts seq off size])
    {| p_hdr := p_hdr s;
       p_files := zassign seq {| fc_seqId := fc_seqId f; fc_fileName := fc_fileName f;
                    fc_fileSize := fc_fileSize f;
                    fc_chunks := fc_chunks f ++ [{| iv_start := off; iv_end := off + size |}] |}
                    (p_files s);
       p_sizes := p_sizes s; p_invalid := p_invalid s; p_ip := p_ip s |}.
Proof.
  intros D Hf H0 H1 H2; split; cbn [p_files p_sizes p_invalid].
  - intros q g; rewrite zfind_assign.
    destruct (Z.eqb_spec q seq) as [->|Hq].
    + rewrite Hf; intros E; injection E as <-; cbn [fc_fileSize fc_seqId fc_fileName fc_chunks].
      destruct (d_files _ _ _ D _ _ Hf) as (n & z & p & I & P & E1 & E2 & E3 & E4).
      exists n, z, (p ++ [LBlock ts seq off size]); split; [apply incarnation_snoc; right; split; [auto|eauto]|].
      rewrite pieces_snoc; cbn [piece]; rewrite Z.eqb_refl, E3.
      repeat (split; [auto|]); rewrite <- E3; apply Forall_app; split; [exact E4|].
      constructor; [|constructor]; unfold within; cbn [iv_start iv_end]; lia.
    + intros E; destruct (d_files _ _ _ D _ _ E) as (n & z & p & I & P & E1 & E2 & E3 & E4).
      exists n, z, (p ++ [LBlock ts seq off size]); split; [apply incarnation_snoc; right; split; [auto|eauto]|].
      rewrite pieces_snoc; cbn [piece].
      destruct (Z.eqb_spec seq q); [congruence|rewrite app_nil_r; auto].
  - intros q E; destruct (d_invalid _ _ _ D _ E) as (n & z & p & I & P).
    exists n, z, (p ++ [LBlock ts seq off size]); split; [|exact P].
    apply incarnation_snoc; right; split; [auto|eauto].
  - intros q n z p I; rewrite zfind_assign.
    apply incarnation_snoc in I; destruct I as [[_ [t E]]|(_ & p0 & _ & I)]; [discriminate|].
    apply (d_all _ _ _ D) in I; destruct I as [I|I]; [left|right; exact I].
    destruct (q =? seq); [|exact I]; destruct (zfind q (p_files s)); [discriminate|congruence].
  - intros q; rewrite zfind_assign; intros H; apply (d_sizes _ _ _ D).
    destruct (q =? seq); [|exact H]; destruct (zfind q (p_files s)); [discriminate|congruence].
  - apply ksorted_assign, (d_sorted _ _ _ D).
Qed.

(** Blocks of a file that is not on disk are skipped. *)
Lemma describes_block_skip o seg s ts seq off size :
  describes o seg s -> zmem seq (p_invalid s) = true ->
  describes o (seg ++ [LBlock ts seq off size]) s.
Proof.
  intros D Hm; split.
  - intros q g E; destruct (d_files _ _ _ D _ _ E) as (n & z & p & I & P & E1 & E2 & E3 & E4).
    exists n, z, (p ++ [LBlock ts seq off size]); split; [apply incarnation_snoc; right; split; [auto|eauto]|].
    rewrite pieces_snoc; cbn [piece].
    destruct (Z.eqb_spec seq q) as [->|]; [|rewrite app_nil_r; auto].
    assert (Hd : zmem q (p_invalid s) = false) by (eapply describes_disjoint; [exact D|congruence]).
    congruence.
  - intros q E; destruct (d_invalid _ _ _ D _ E) as (n & z & p & I & P).
    exists n, z, (p ++ [LBlock ts seq off size]); split; [|exact P].
    apply incarnation_snoc; right; split; [auto|eauto].
  - intros q n z p I.
    apply incarnation_snoc in I; destruct I as [[_ [t E]]|(_ & p0 & _ & I)]; [discriminate|].
    exact (d_all _ _ _ D _ _ _ _ I).
  - exact (d_sizes _ _ _ D).
  - exact (d_sorted _ _ _ D).
Qed.

Lemma describes_inval o seg s ts seq :
  describes o seg s ->
  describes o (seg ++ [LInval ts seq])
    {| p_hdr := p_hdr s; p_files := zerase seq (p_files s); p_sizes := p_sizes s;
       p_invalid := zremove seq (p_invalid s); p_ip := p_ip s |}.
Proof.
  intros D; split; cbn [p_files p_sizes p_invalid].
  - intros q g; rewrite zfind_erase; destruct (Z.eqb_spec q seq) as [->|Hq]; [discriminate|].
    intros E; destruct (d_files _ _ _ D _ _ E) as (n & z & p & I & P & E1 & E2 & E3 & E4).
    exists n, z, (p ++ [LInval ts seq]); split.
    + apply incarnation_snoc; right; split; [cbn [ends]; congruence|eauto].
    + rewrite pieces_snoc; cbn [piece]; rewrite app_nil_r; auto.
  - intros q; rewrite zmem_remove; destruct (Z.eqb_spec q seq) as [->|Hq]; [discriminate|].
    intros E; destruct (d_invalid _ _ _ D _ E) as (n & z & p & I & P).
    exists n, z, (p ++ [LInval ts seq]); split; [|exact P].
    apply incarnation_snoc; right; split; [cbn [ends]; congruence|eauto].
  - intros q n z p I; rewrite zfind_erase, zmem_remove.
    apply incarnation_snoc in I; destruct I as [[_ [t E]]|(He & p0 & _ & I)]; [discriminate|].
    cbn [ends] in He; destruct (Z.eqb_spec q seq) as [->|Hq]; [congruence|].
    exact (d_all _ _ _ D _ _ _ _ I).
  - intros q; rewrite zfind_erase; destruct (q =? seq); [congruence|]; apply (d_sizes _ _ _ D).
  - apply ksorted_erase, (d_sorted _ _ _ D).
Qed.

Record inv (o : popts) (es : list log_entry) (st : Z) (s : pstate) : Prop := {
  i_status : st = OK \/ st = INCONSISTENT_DIRECTORY;
  i_hdr : p_hdr s = true -> p_ip s <> [];
  i_bad : st = INCONSISTENT_DIRECTORY ->
     p_files s = [] /\ p_sizes s = [] /\ p_invalid s = [] /\
     exists pre r skipped, es = pre ++ r :: skipped /\ resets o r /\
       Forall (fun e => ~ matches o e) skipped;
  i_ok : st = OK ->
     exists seg, current_session o es seg /\ describes o seg s /\
       ((es = [] /\ seg = [] /\ p_hdr s = false) \/
        (p_hdr s = true /\ es <> [] /\ seg <> []))
}.

Lemma inv_init o ip : inv o [] OK (p_init ip).
Proof.
  split; [left; reflexivity|discriminate|discriminate|].
  intros _; exists []; split; [|split; [apply describes_init|left; auto]].
  split; [constructor|]; left; auto.
Qed.

Lemma matchb_spec o rid c : matchb o rid c = true <-> rid = po_rid o /\ c = po_config o.
Proof.
  unfold matchb; rewrite andb_true_iff, Z.eqb_eq; split.
  - intros [H1 H2]; apply str_eqb_eq in H1; auto.
  - intros [-> ->]; split; [apply str_eqb_refl|reflexivity].
Qed.

Lemma session_snoc o es seg e :
  current_session o es seg -> es <> [] -> seg <> [] -> ~ resets o e ->
  current_session o (es ++ [e]) (seg ++ [e]).
Proof.
  intros [Hr Hc] Hes Hseg He; split.
  { apply Forall_app; split; [exact Hr|constructor; [exact He|constructor]]. }
  destruct Hc as [[-> [->|(h & r & -> & Hm)]]|(pre & r & sk & h & rest & -> & H1 & H2 & -> & H3)].
  - congruence.
  - left; split; [reflexivity|right].
    exists h, (r ++ [e]); split; [reflexivity|exact Hm].
  - right; exists pre, r, sk, h, (rest ++ [e]).
    split; [rewrite <- !app_assoc; cbn [app]; rewrite <- app_assoc; reflexivity|].
    repeat (split; [assumption|]); split; [reflexivity|assumption].
Qed.

Lemma incarnation_one e seq name size post : ~ ends seq e ->
  ~ incarnation [e] seq name size post.
Proof.
  intros He H; apply (incarnation_snoc [] e) in H; destruct H as [[_ [ts ->]]|(_ & p & _ & H)].
  - apply He; reflexivity.
  - destruct H as (pre & ts & E & _); destruct pre; discriminate.
Qed.
Lemma describes_header o e s : (forall seq, ~ ends seq e) ->
  p_files s = [] -> p_invalid s = [] -> describes o [e] s.
Proof.
  intros He Hf Hi; split; rewrite ?Hf, ?Hi.
  - intros; discriminate.
  - intros; discriminate.
  - intros seq name size post H; exfalso; exact (incarnation_one _ _ _ _ _ (He seq) H).
  - intros seq H; exfalso; apply H; reflexivity.
  - constructor.
Qed.

(** Reset entries leave nothing. *)
Lemma inv_reset o es e s : resets o e -> p_files s = [] -> p_sizes s = [] -> p_invalid s = [] ->
  (p_hdr s = true -> p_ip s <> []) -> inv o (es ++ [e]) INCONSISTENT_DIRECTORY s.
Proof.
  intros H1 H2 H3 H4 H5; split; [auto|exact H5| |discriminate].
  intros _; repeat (split; [assumption|]).
  exists es, e, []; repeat split; auto.
Qed.

Lemma inv_step o es st s e st' s' :
  inv o es st s -> entry_fields_ok e -> estep o e st s = Ret (st', s') -> st' <> INVALID_LOG ->
  inv o (es ++ [e]) st' s'.
Proof.
  intros I Hf E Hne.
  destruct (i_status _ _ _ _ I) as [-> | ->].
  - (* the directory is consistent so far *)
    destruct (i_ok _ _ _ _ I eq_refl) as (seg & Hc & D & Hh).
    assert (Stay : p_hdr s = true -> ~ resets o e -> st' = OK -> p_hdr s' = true ->
              p_ip s' <> [] -> describes o (seg ++ [e]) s' -> inv o (es ++ [e]) st' s').
    { intros G1 G2 G3 G4 G5 G6; split; [auto|auto|subst; discriminate|].
      intros _; exists (seg ++ [e]).
      destruct Hh as [(_ & _ & Hh)|(_ & Hs1 & Hs2)]; [congruence|].
      split; [apply session_snoc; auto|]; split; [exact G6|right].
      split; [exact G4|]; split; [destruct es; discriminate|destruct seg; discriminate]. }
    pose proof (i_hdr _ _ _ _ I) as Hip.
    destruct e as [ts v rid ip c|ts name seq size|ts seq off size|ts seq|ts seq size|ts];
      cbn [estep] in E; change (OK =? INCONSISTENT_DIRECTORY) with false in E; cbv iota in E.
    + destruct (negb (v =? 2)) eqn:Ev; cbn [orb] in E; [injection E as <- <-; congruence|].
      destruct (Z.eqb_spec (zlen ip) 0) as [|Hnil]; [injection E as <- <-; congruence|].
      assert (Hip' : ip <> []) by (intros ->; apply Hnil; reflexivity).
      destruct (matchb o rid c) eqn:Em; injection E as <- <-.
      * apply matchb_spec in Em.
        destruct Hh as [(-> & -> & Hh)|(Hh & Hs1 & Hs2)].
        -- split; [auto|auto|discriminate|]; intros _.
           exists [LHeader ts v rid ip c]; split; [|split].
           ++ split; [constructor; [|constructor]; cbn [resets]; tauto|].
              left; split; [reflexivity|right]; exists (LHeader ts v rid ip c), []; split; [reflexivity|exact Em].
           ++ apply (describes_neutral o [] s (LHeader ts v rid ip c)); auto.
           ++ right; repeat split; discriminate.
        -- apply Stay; auto; try (cbn [resets]; tauto).
           apply (describes_neutral o seg s); auto.
      * apply inv_reset; auto.
        cbn [resets]; intros H; apply matchb_spec in H; congruence.
    + destruct (p_hdr s) eqn:Ehd; cbn [negb orb] in E; [|injection E as <- <-; congruence].
      destruct (po_dirTree o); [injection E as <- <-; congruence|].
      destruct (zfind seq (p_files s)) eqn:Ez; cbn [orb] in E; [injection E as <- <-; congruence|].
      destruct (zmem seq (p_invalid s)) eqn:Em; [injection E as <- <-; congruence|].
      destruct (po_disk o name) as [d|] eqn:Ed.
      * destruct (po_prealloc o) eqn:Ep; cbn [negb orb] in E.
        -- destruct (Z.leb_spec size d) as [Hd|Hd]; injection E as <- <-.
           ++ apply Stay; auto.
              rewrite <- Ehd; apply describes_create_ok; auto; split; auto.
           ++ apply Stay; auto.
              rewrite <- Ehd; apply describes_create_bad; auto; intros d' [Hp1 Hp2].
              rewrite Ed in Hp1; injection Hp1 as <-; specialize (Hp2 Ep); lia.
        -- injection E as <- <-; apply Stay; auto.
           rewrite <- Ehd; apply describes_create_ok; auto; split; [auto|congruence].
      * injection E as <- <-; apply Stay; auto.
        rewrite <- Ehd; apply describes_create_bad; auto; intros d' [Hp1 Hp2]; congruence.
    + destruct (p_hdr s) eqn:Ehd; cbn [negb orb] in E; [|injection E as <- <-; congruence].
      destruct (po_dirTree o); [injection E as <- <-; congruence|].
      destruct (zmem seq (p_invalid s)) eqn:Em.
      * injection E as <- <-; apply Stay; auto; apply describes_block_skip; auto.
      * destruct (zfind seq (p_files s)) as [f|] eqn:Ez; [|injection E as <- <-; congruence].
        destruct (2 ^ 63 <=? off + size) eqn:Eo; [discriminate|].
        destruct (Z.ltb_spec (fc_fileSize f) (off + size)) as [Hd|Hd];
          [injection E as <- <-; congruence|].
        unfold mkInterval in E; destruct (off + size <? off) eqn:Ei; cbn [obind] in E; [discriminate|].
        injection E as <- <-; apply Stay; auto.
        rewrite <- Ehd; cbn [entry_fields_ok] in Hf; unfold in_nat63 in Hf.
        apply describes_block; auto; lia.
    + destruct (p_hdr s) eqn:Ehd; cbn [negb orb] in E; [|injection E as <- <-; congruence].
      destruct (po_dirTree o); [injection E as <- <-; congruence|].
      match type of E with (if ?c then _ else _) = _ => destruct c end;
        injection E as <- <-; [congruence|].
      apply Stay; auto; rewrite <- Ehd; apply describes_inval; auto.
    + destruct (p_hdr s) eqn:Ehd; cbn [negb orb] in E; [|injection E as <- <-; congruence].
      destruct (po_dirTree o); [injection E as <- <-; congruence|].
      destruct (zfind seq (p_files s)) as [f|] eqn:Ez; [|injection E as <- <-; congruence].
      destruct (zfind seq (p_sizes s)) as [old|] eqn:Eq; [|discriminate].
      destruct (size <? old); [injection E as <- <-; congruence|].
      destruct (po_prealloc o && (fc_fileSize f <? size)); injection E as <- <-; [congruence|].
      apply Stay; auto.
      apply (describes_neutral o seg s); auto; cbn [p_sizes].
      intros q Hq; rewrite zfind_assign; destruct (q =? seq); [|exact Hq].
      destruct (zfind q (p_sizes s)); [discriminate|exact Hq].
    + injection E as <- <-; apply inv_reset; cbn [resets p_hdr]; auto; discriminate.
  - (* waiting for a matching header *)
    destruct (i_bad _ _ _ _ I eq_refl) as (F1 & F2 & F3 & pre & r & sk & -> & Hr & Hs).
    pose proof (i_hdr _ _ _ _ I) as Hip.
    assert (Skip : ~ matches o e -> st' = INCONSISTENT_DIRECTORY -> s' = s ->
                   inv o ((pre ++ r :: sk) ++ [e]) st' s').
    { intros G1 -> ->; split; [auto|exact Hip| |discriminate].
      intros _; repeat (split; [assumption|]).
      exists pre, r, (sk ++ [e]); split; [rewrite <- app_assoc; reflexivity|].
      split; [exact Hr|apply Forall_app; split; [exact Hs|constructor; [exact G1|constructor]]]. }
    destruct e as [ts v rid ip c|ts name seq size|ts seq off size|ts seq|ts seq size|ts];
      cbn [estep] in E; change (INCONSISTENT_DIRECTORY =? INCONSISTENT_DIRECTORY) with true in E;
      cbv iota in E; try (injection E as <- <-; apply Skip; auto; fail).
    destruct (negb (v =? 2)) eqn:Ev; cbn [orb] in E; [injection E as <- <-; congruence|].
    destruct (Z.eqb_spec (zlen ip) 0) as [|Hnil]; [injection E as <- <-; congruence|].
    assert (Hip' : ip <> []) by (intros ->; apply Hnil; reflexivity).
    destruct (matchb o rid c) eqn:Em; injection E as <- <-.
    + apply matchb_spec in Em; split; [auto|auto|discriminate|]; intros _.
      exists [LHeader ts v rid ip c]; split; [|split].
      * split; [constructor; [cbn [resets]; tauto|constructor]|].
        right; exists pre, r, sk, (LHeader ts v rid ip c), [].
        rewrite <- app_assoc; split; [reflexivity|]; split; [exact Hr|]; split; [exact Hs|].
        split; [reflexivity|exact Em].
      * apply describes_header; auto.
      * right; repeat split; [destruct pre|]; discriminate.
    + apply inv_reset; auto.
      cbn [resets]; intros H; apply matchb_spec in H; congruence.
Qed.

(** A step never stops the process. *)
Lemma estep_safe o es st s e : inv o es st s -> entry_fields_ok e -> block_in_range e ->
  exists r, estep o e st s = Ret r.
Proof.
  intros I Hf Hb.
  destruct (i_status _ _ _ _ I) as [-> | ->].
  - destruct (i_ok _ _ _ _ I eq_refl) as (seg & Hc & D & Hh).
    destruct e as [ts v rid ip c|ts name seq size|ts seq off size|ts seq|ts seq size|ts];
      cbn [estep]; change (OK =? INCONSISTENT_DIRECTORY) with false; cbv iota; eauto.
    + destruct (negb (v =? 2) || (zlen ip =? 0)); [eauto|destruct (matchb o rid c); eauto].
    + destruct (negb (p_hdr s) || po_dirTree o); [eauto|].
      match goal with |- context [if ?c then Ret (INVALID_LOG, s) else _] => destruct c end; [eauto|].
      destruct (po_disk o name); [|eauto].
      destruct (negb (po_prealloc o) || (size <=? z)); eauto.
    + destruct (negb (p_hdr s) || po_dirTree o); [eauto|].
      destruct (zmem seq (p_invalid s)); [eauto|].
      destruct (zfind seq (p_files s)) as [f|]; [|eauto].
      cbn [block_in_range entry_fields_ok] in *; unfold in_nat63 in Hf.
      destruct (Z.leb_spec (2 ^ 63) (off + size)); [lia|].
      destruct (fc_fileSize f <? off + size); [eauto|].
      unfold mkInterval; destruct (Z.ltb_spec (off + size) off); [lia|cbn [obind]; eauto].
    + destruct (negb (p_hdr s) || po_dirTree o); [eauto|].
      match goal with |- context [if ?c then Ret (INVALID_LOG, s) else _] => destruct c end; eauto.
    + destruct (negb (p_hdr s) || po_dirTree o); [eauto|].
      destruct (zfind seq (p_files s)) as [f|] eqn:Ez; [|eauto].
      destruct (zfind seq (p_sizes s)) eqn:Eq.
      * destruct (size <? z); [eauto|]; destruct (po_prealloc o && (fc_fileSize f <? size)); eauto.
      * exfalso; apply (d_sizes _ _ _ D seq); [congruence|exact Eq].
  - destruct e; cbn [estep]; change (INCONSISTENT_DIRECTORY =? INCONSISTENT_DIRECTORY) with true;
      cbv iota; eauto.
    destruct (negb (version =? 2) || (zlen ip =? 0)); [eauto|destruct (matchb o rid config); eauto].
Qed.

Definition bodies (es : list log_entry) : list (list Z) := map entry_body es.
Lemma log_frames es : log_bytes es = frames (bodies es).
Proof. unfold log_bytes, frames, bodies; induction es; cbn; [reflexivity|]; rewrite IHes; reflexivity. Qed.
Lemma bodies_ok es : Forall entry_ok es -> Forall body_ok (bodies es).
Proof.
  unfold bodies; intros H; apply Forall_map; eapply Forall_impl; [|exact H].
  intros e [Hf Hl]; unfold entry_bytes in Hl; rewrite zlen_frame in Hl.
  destruct (entry_body_cons e) as (t & b & E & _).
  unfold body_ok; rewrite E in *; rewrite zlen_cons in *; pose proof (zlen_nonneg b); lia.
Qed.

(** Running over the entries of a list. *)
Lemma run_inv o es : forall pre st s,
  po_parseOnly o = false -> Forall entry_ok es -> Forall block_in_range es -> inv o pre st s ->
  (exists s', run o (bodies es) st s = Ret (inr s')) \/
  (exists st' s', run o (bodies es) st s = Ret (inl (st', s')) /\ inv o (pre ++ es) st' s').
Proof.
  induction es as [|e es IH]; intros pre st s Hp Hok Hb I; cbn [bodies map run].
  - right; exists st, s; rewrite app_nil_r; auto.
  - inversion Hok as [|? ? He Hok']; inversion Hb as [|? ? Hbe Hb']; subst.
    rewrite parse_body by assumption.
    destruct (estep_safe o pre st s e I (proj1 He) Hbe) as [[st1 s1] E].
    rewrite E; cbn [obind].
    destruct (Z.eqb_spec st1 INVALID_LOG) as [|Hne]; [left; eauto|].
    pose proof (inv_step _ _ _ _ _ _ _ I (proj1 He) E Hne) as I'.
    destruct (IH (pre ++ [e]) st1 s1 Hp Hok' Hb' I') as [H|(st' & s' & H1 & H2)]; [left; exact H|].
    right; exists st', s'; split; [exact H1|]; rewrite <- app_assoc in H2; exact H2.
Qed.
