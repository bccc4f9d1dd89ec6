(** The parse loop over whole and torn files. *)
From Verif Require Export Proofs.LogCodecFacts Proofs.IntervalFacts.

Local Opaque Z.pow.

Definition frames (bodies : list (list Z)) : list Z := flat_map frame bodies.

Lemma zlen_frame b : zlen (frame b) = 2 + zlen b.
Proof. unfold frame; rewrite zlen_app, zlen_le_bytes; reflexivity. Qed.

Lemma fread_full pre x rest :
  fread {| lf_data := pre ++ x ++ rest; lf_pos := zlen pre |} (zlen x) =
  (x, {| lf_data := pre ++ x ++ rest; lf_pos := zlen pre + zlen x |}).
Proof. unfold fread; cbn [lf_data lf_pos]; rewrite slice_prefix; reflexivity. Qed.

Lemma fread_end pre x n : zlen x <= n ->
  fread {| lf_data := pre ++ x; lf_pos := zlen pre |} n =
  (x, {| lf_data := pre ++ x; lf_pos := zlen pre + zlen x |}).
Proof.
  intros H; unfold fread; cbn [lf_data lf_pos].
  replace (slice (pre ++ x) (zlen pre) n) with x; [reflexivity|].
  unfold slice, zlen in *; rewrite Nat2Z.id, skipn_app, skipn_all, Nat.sub_diag.
  cbn [app skipn]; rewrite firstn_all2 by lia; reflexivity.
Qed.

Lemma sx_len b : body_ok b -> sx 2 (le_value (le_bytes 2 (zlen b))) = zlen b.
Proof.
  unfold body_ok; intros H; rewrite le_value_bytes.
  - unfold sx; change (2 ^ (8 * 2 - 1)) with 32768; destruct (Z.ltb_spec (zlen b) 32768); lia.
  - change (2 ^ (8 * Z.of_nat 2)) with 65536; lia.
Qed.

Lemma loop_frame fuel o pre b rest st s : body_ok b ->
  parse_loop (S fuel) o {| lf_data := pre ++ frame b ++ rest; lf_pos := zlen pre |} st s =
  obind (parseEntry o b st s) (fun r =>
    let '(st', s') := r in
    let f := {| lf_data := pre ++ frame b ++ rest; lf_pos := zlen (pre ++ frame b) |} in
    if st' =? INVALID_LOG then Ret (inr (f, s')) else parse_loop fuel o f st' s').
Proof.
  intros Hb; cbn [parse_loop].
  pose proof (fread_full pre (le_bytes 2 (zlen b)) (b ++ rest)) as H1.
  assert (Hl : zlen (le_bytes 2 (zlen b)) = 2) by apply zlen_le_bytes.
  rewrite Hl in H1.
  replace (pre ++ frame b ++ rest) with (pre ++ le_bytes 2 (zlen b) ++ b ++ rest)
    by (unfold frame; rewrite <- app_assoc; reflexivity).
  rewrite H1, Hl; cbn [Z.eqb negb]; change (2 =? 0) with false; change (2 =? 2) with true.
  cbn [negb]; rewrite sx_len by exact Hb.
  unfold body_ok in Hb; unfold kMaxEntryLength.
  destruct (Z.leb_spec (zlen b) 0); [lia|].
  destruct (Z.ltb_spec (2 + 1 + 10 + 4096 + 2 * 10) (zlen b)); [lia|]; cbn [orb].
  pose proof (fread_full (pre ++ le_bytes 2 (zlen b)) b rest) as H2.
  rewrite <- app_assoc, zlen_app, Hl in H2; rewrite H2.
  rewrite Z.eqb_refl; cbn [negb].
  rewrite zlen_app, zlen_frame, Z.add_assoc; reflexivity.
Qed.

Definition torn (t : list Z) : Prop :=
  t = [] \/ exists b q, body_ok b /\ q <> [] /\ frame b = t ++ q.

Lemma truncate_end pre t p :
  truncateExtraBytesAtEnd {| lf_data := pre ++ t; lf_pos := p |} (zlen t) =
  {| lf_data := pre; lf_pos := zlen pre |}.
Proof.
  unfold truncateExtraBytesAtEnd, lseek, ftruncate; cbn [lf_data lf_pos].
  rewrite zlen_app; replace (zlen pre + zlen t - zlen t) with (zlen pre) by lia.
  f_equal; unfold zlen.
  rewrite Nat2Z.id, firstn_app, firstn_all, Nat.sub_diag; cbn [firstn].
  replace (Z.to_nat _) with 0%nat by lia; cbn [repeat]; rewrite !app_nil_r; reflexivity.
Qed.

Lemma loop_torn fuel o pre t st s : torn t ->
  parse_loop (S fuel) o {| lf_data := pre ++ t; lf_pos := zlen pre |} st s =
  Ret (inl (st, if po_parseOnly o then {| lf_data := pre ++ t; lf_pos := zlen (pre ++ t) |}
                else {| lf_data := pre; lf_pos := zlen pre |}, s)).
Proof.
  intros Ht; cbn [parse_loop].
  destruct (Z.leb_spec 2 (zlen t)) as [H2|H2].
  - destruct Ht as [->|(b & q & Hb & Hq & E)]; [change (zlen (@nil Z)) with 0 in H2; lia|].
    assert (Hl : zlen (le_bytes 2 (zlen b)) = 2) by apply zlen_le_bytes.
    assert (Et : exists u, t = le_bytes 2 (zlen b) ++ u /\ b = u ++ q).
    { unfold frame in E; remember (le_bytes 2 (zlen b)) as L.
      destruct L as [|x [|y [|z L]]]; try (exfalso; unfold zlen in Hl; cbn [length] in Hl; lia).
      destruct t as [|x' [|y' u]]; try (exfalso; unfold zlen in H2; cbn [length] in H2; lia).
      exists u; cbn [app] in E; injection E as -> -> Eb; split; [reflexivity|exact Eb]. }
    destruct Et as (u & -> & Eb).
    pose proof (fread_full pre (le_bytes 2 (zlen b)) u) as H1; rewrite Hl in H1.
    rewrite H1, Hl; change (2 =? 0) with false; change (2 =? 2) with true; cbn [negb].
    rewrite sx_len by exact Hb.
    unfold body_ok in Hb; unfold kMaxEntryLength.
    destruct (Z.leb_spec (zlen b) 0); [lia|].
    destruct (Z.ltb_spec (2 + 1 + 10 + 4096 + 2 * 10) (zlen b)); [lia|]; cbn [orb].
    assert (Hu : zlen u < zlen b).
    { rewrite Eb, zlen_app; destruct q; [congruence|rewrite zlen_cons].
      pose proof (zlen_nonneg q); lia. }
    pose proof (fread_end (pre ++ le_bytes 2 (zlen b)) u (zlen b)) as H3.
    rewrite <- app_assoc, zlen_app, Hl in H3; rewrite H3 by lia.
    destruct (Z.eqb_spec (zlen u) (zlen b)); [lia|]; cbn [negb].
    destruct (po_parseOnly o).
    + rewrite !zlen_app, Hl, Z.add_assoc; reflexivity.
    + replace (zlen u + 2) with (zlen (le_bytes 2 (zlen b) ++ u)) by (rewrite zlen_app; lia).
      rewrite truncate_end; reflexivity.
  - rewrite fread_end by lia.
    pose proof (zlen_nonneg t).
    destruct (Z.eqb_spec (zlen t) 0) as [E|E].
    + assert (t = []) by (destruct t; [reflexivity|rewrite zlen_cons in E; pose proof (zlen_nonneg t); lia]).
      subst t; rewrite app_nil_r, Z.add_0_r; destruct (po_parseOnly o); reflexivity.
    + destruct (Z.eqb_spec (zlen t) 2); [lia|]; cbn [negb].
      rewrite truncate_end, zlen_app; reflexivity.
Qed.

(** The effect of the entries, without the file. *)
Fixpoint run (o : popts) (bodies : list (list Z)) (st : Z) (s : pstate)
  : outcome ((Z * pstate) + pstate) :=
  match bodies with
  | [] => Ret (inl (st, s))
  | b :: r =>
      obind (parseEntry o b st s) (fun x =>
      let '(st', s') := x in
      if st' =? INVALID_LOG then Ret (inr s') else run o r st' s')
  end.

Lemma loop_run o bodies : forall fuel pre t st s,
  Forall body_ok bodies -> torn t -> (length bodies < fuel)%nat ->
  let whole := pre ++ frames bodies in
  match run o bodies st s with
  | Ret (inl (st', s')) =>
      parse_loop fuel o {| lf_data := whole ++ t; lf_pos := zlen pre |} st s =
      Ret (inl (st', if po_parseOnly o then {| lf_data := whole ++ t; lf_pos := zlen (whole ++ t) |}
                     else {| lf_data := whole; lf_pos := zlen whole |}, s'))
  | Ret (inr s') => exists p,
      parse_loop fuel o {| lf_data := whole ++ t; lf_pos := zlen pre |} st s =
      Ret (inr ({| lf_data := whole ++ t; lf_pos := p |}, s'))
  | Crash => parse_loop fuel o {| lf_data := whole ++ t; lf_pos := zlen pre |} st s = Crash
  | Undef => parse_loop fuel o {| lf_data := whole ++ t; lf_pos := zlen pre |} st s = Undef
  end.
Proof.
  induction bodies as [|b bodies IH]; intros fuel pre t st s Hok Ht Hf; cbn zeta.
  - cbn [run frames flat_map]; rewrite app_nil_r.
    destruct fuel; [cbn [length] in Hf; lia|]; apply loop_torn, Ht.
  - inversion Hok as [|? ? Hb Hok']; subst; cbn [length] in Hf.
    destruct fuel as [|fuel]; [lia|].
    change (frames (b :: bodies)) with (frame b ++ frames bodies).
    rewrite <- !app_assoc, loop_frame by exact Hb.
    cbn [run]; destruct (parseEntry o b st s) as [[st' s']| | ]; cbn [obind]; auto.
    cbv zeta; destruct (st' =? INVALID_LOG).
    + eexists; reflexivity.
    + specialize (IH fuel (pre ++ frame b) t st' s' Hok' Ht ltac:(lia)).
      cbv zeta in IH; rewrite <- !app_assoc in IH; exact IH.
Qed.

Lemma frames_length bodies : (length bodies <= length (frames bodies))%nat.
Proof.
  induction bodies as [|b bodies IH]; [reflexivity|].
  change (frames (b :: bodies)) with (frame b ++ frames bodies).
  rewrite app_length; unfold frame; rewrite app_length, le_bytes_len; cbn [length]; lia.
Qed.

(** parseLog on a file of whole frames followed by a torn one. *)
Lemma parse_torn now o bodies t ip :
  Forall body_ok bodies -> torn t ->
  let whole := frames bodies in
  let kept := if po_parseOnly o then whole ++ t else whole in
  match run o bodies OK (p_init ip) with
  | Ret (inl (st, s)) =>
      parseLog now o (file_of (whole ++ t)) ip =
      if st =? OK then
        obind (writeFileInvalidationEntries now {| lf_data := kept; lf_pos := zlen kept |} (p_invalid s))
          (fun f => Ret {| pr_status := OK;
               pr_infos := map (fun e => {| fc_seqId := fc_seqId (snd e);
                                            fc_fileName := fc_fileName (snd e);
                                            fc_fileSize := fc_fileSize (snd e);
                                            fc_chunks := mergeChunks (fc_chunks (snd e)) |})
                               (p_files s);
               pr_ip := p_ip s; pr_file := f |})
      else Ret {| pr_status := st; pr_infos := []; pr_ip := p_ip s;
                  pr_file := {| lf_data := kept; lf_pos := zlen kept |} |}
  | Ret (inr s) => exists p,
      parseLog now o (file_of (whole ++ t)) ip =
      Ret {| pr_status := INVALID_LOG; pr_infos := []; pr_ip := p_ip s;
             pr_file := {| lf_data := whole ++ t; lf_pos := p |} |}
  | Crash => parseLog now o (file_of (whole ++ t)) ip = Crash
  | Undef => parseLog now o (file_of (whole ++ t)) ip = Undef
  end.
Proof.
  intros Hok Ht; cbv zeta; unfold parseLog, file_of; cbn [lf_data].
  pose proof (loop_run o bodies (S (length (frames bodies ++ t))) [] t OK (p_init ip) Hok Ht) as H.
  cbn [app] in H; cbv zeta in H.
  assert (Hl : (length bodies < S (length (frames bodies ++ t)))%nat).
  { rewrite app_length; pose proof (frames_length bodies); lia. }
  specialize (H Hl); change (zlen (@nil Z)) with 0 in H.
  destruct (run o bodies OK (p_init ip)) as [[[st s]|s]| | ].
  - rewrite H; cbn [obind]; destruct (po_parseOnly o); reflexivity.
  - destruct H as [p H]; exists p; rewrite H; reflexivity.
  - rewrite H; reflexivity.
  - rewrite H; reflexivity.
Qed.

(** A prefix of a file of frames. *)
Lemma prefix_split bodies : forall k, Forall body_ok bodies -> (k <= length (frames bodies))%nat ->
  exists t, firstn k (frames bodies) = frames (whole_prefix bodies k) ++ t /\ torn t.
Proof.
  induction bodies as [|b bodies IH]; intros k Hok Hk.
  - exists []; cbn; rewrite firstn_nil; split; [reflexivity|left; reflexivity].
  - inversion Hok as [|? ? Hb Hok']; subst.
    change (frames (b :: bodies)) with (frame b ++ frames bodies) in *.
    cbn [whole_prefix]; rewrite app_length in Hk.
    destruct (Nat.leb_spec (length (frame b)) k) as [H|H].
    + destruct (IH (k - length (frame b))%nat Hok' ltac:(lia)) as [t [Et Ht]].
      exists t; split; [|exact Ht].
      rewrite firstn_app, firstn_all2 by lia; rewrite Et.
      change (frames (b :: ?r)) with (frame b ++ frames r).
      rewrite <- app_assoc; reflexivity.
    + exists (firstn k (frame b)); split.
      * rewrite firstn_app; replace (k - length (frame b))%nat with 0%nat by lia.
        cbn [firstn frames flat_map app]; apply app_nil_r.
      * right; exists b, (skipn k (frame b)); split; [exact Hb|]; split.
        -- intros E; pose proof (skipn_length k (frame b)) as L; rewrite E in L; cbn [length] in L; lia.
        -- symmetry; apply firstn_skipn.
Qed.

Lemma whole_ok bodies : forall k, Forall body_ok bodies -> Forall body_ok (whole_prefix bodies k).
Proof.
  induction bodies as [|b bodies IH]; intros k H; cbn [whole_prefix]; [constructor|].
  inversion H; subst; destruct (length (frame b) <=? k)%nat; constructor; auto.
Qed.

(** Writing at the end of the file appends. *)
Lemma fwrite_end d bs :
  fwrite {| lf_data := d; lf_pos := zlen d |} bs =
  {| lf_data := d ++ bs; lf_pos := zlen (d ++ bs) |}.
Proof.
  unfold fwrite; cbn [lf_data lf_pos]; rewrite zlen_app; f_equal.
  replace (Z.to_nat (zlen d - zlen d)) with 0%nat by lia; cbn [repeat]; rewrite app_nil_r.
  unfold zlen; rewrite Nat2Z.id, firstn_all, skipn_all2 by lia.
  rewrite app_nil_r; reflexivity.
Qed.

Lemma writeInval_appends now seqs : forall d r,
  writeFileInvalidationEntries now {| lf_data := d; lf_pos := zlen d |} seqs = Ret r ->
  exists a, lf_data r = d ++ a /\ lf_pos r = zlen (d ++ a).
Proof.
  induction seqs as [|q seqs IH]; intros d r; cbn [writeFileInvalidationEntries].
  - intros E; injection E as <-; exists []; cbn [lf_data lf_pos].
    rewrite app_nil_r; split; reflexivity.
  - destruct (encodeFileInvalidationEntry (now q) (repeat 0 (Z.to_nat kMaxEntryLength))
               kMaxEntryLength q) as [e| | ]; cbn [obind]; try discriminate.
    rewrite fwrite_end; intros E; apply IH in E; destruct E as [a [E1 E2]].
    exists (slice (snd e) 0 (fst e) ++ a); rewrite E1, E2, <- app_assoc; split; reflexivity.
Qed.

Lemma run_status o bodies : forall st s st' s', st <> INVALID_LOG ->
  run o bodies st s = Ret (inl (st', s')) -> st' <> INVALID_LOG.
Proof.
  induction bodies as [|b bodies IH]; intros st s st' s' Hst; cbn [run].
  - intros E; injection E as <- <-; exact Hst.
  - destruct (parseEntry o b st s) as [[st1 s1]| | ]; cbn [obind]; try discriminate.
    destruct (Z.eqb_spec st1 INVALID_LOG); [discriminate|].
    apply IH; assumption.
Qed.

Lemma torn_tail now o bodies k ip :
  Forall body_ok bodies -> (k <= length (frames bodies))%nat -> po_parseOnly o = false ->
  let whole := frames (whole_prefix bodies k) in
  let cut := firstn k (frames bodies) in
  same_recovery (parseLog now o (file_of cut) ip) (parseLog now o (file_of whole) ip) /\
  (forall r, parseLog now o (file_of cut) ip = Ret r ->
     (pr_status r = INVALID_LOG -> lf_data (pr_file r) = cut) /\
     (pr_status r <> INVALID_LOG ->
      exists a, lf_data (pr_file r) = whole ++ a /\ lf_pos (pr_file r) = zlen (whole ++ a))).
Proof.
  intros Hok Hk Hp; cbv zeta.
  destruct (prefix_split bodies k Hok Hk) as [t [Et Ht]].
  set (wb := whole_prefix bodies k) in *.
  assert (Hw : Forall body_ok wb) by (apply whole_ok, Hok).
  pose proof (parse_torn now o wb t ip Hw Ht) as P1.
  pose proof (parse_torn now o wb [] ip Hw (or_introl eq_refl)) as P2.
  cbv zeta in P1, P2; rewrite Hp in P1, P2; rewrite app_nil_r in P2; rewrite <- Et in P1.
  destruct (run o wb OK (p_init ip)) as [[[st s]|s]| | ] eqn:Er.
  - rewrite P1, P2.
    apply run_status in Er; [|discriminate].
    split.
    + unfold same_recovery.
      match goal with |- match ?m with _ => _ end => destruct m end; auto.
    + intros r; destruct (Z.eqb_spec st OK) as [->|Hst].
      * destruct (writeFileInvalidationEntries now
           {| lf_data := frames wb; lf_pos := zlen (frames wb) |} (p_invalid s)) as [f| | ] eqn:Ew;
          cbn [obind]; try discriminate.
        intros E; injection E as <-; cbn [pr_status pr_file].
        split; [discriminate|intros _].
        apply writeInval_appends in Ew; exact Ew.
      * intros E; injection E as <-; cbn [pr_status pr_file lf_data lf_pos].
        split; [contradiction|intros _].
        exists []; rewrite app_nil_r; split; reflexivity.
  - destruct P1 as [p1 P1], P2 as [p2 P2]; rewrite P1, P2; split.
    + cbn [same_recovery pr_status pr_infos pr_ip]; repeat split; congruence.
    + intros r E; injection E as <-; cbn [pr_status pr_file lf_data].
      split; [reflexivity|congruence].
  - rewrite P1, P2; split; [exact I|discriminate].
  - rewrite P1, P2; split; [exact I|discriminate].
Qed.
