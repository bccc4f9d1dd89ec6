(** Recovery, session changes and compaction. *)
From Verif Require Export Proofs.LogRecoverFacts.

Local Opaque Z.pow.

Lemma log_bytes_app a b : log_bytes (a ++ b) = log_bytes a ++ log_bytes b.
Proof. apply flat_map_app. Qed.

Lemma write_entry e : entry_fields_ok e -> zlen (entry_bytes e) <= 4129 ->
  (forall ts v rid ip c, e = LHeader ts v rid ip c -> v = 2) ->
  exists d, encode_of e entry_buf kMaxEntryLength = Ret (zlen (entry_bytes e), d) /\
            slice d 0 (zlen (entry_bytes e)) = entry_bytes e.
Proof.
  intros Hf Hl Hv.
  assert (Hm : 3 <= kMaxEntryLength <= zlen entry_buf) by (vm_compute; split; discriminate).
  destruct (encode_spec e entry_buf kMaxEntryLength Hf Hv Hm) as (n & d & E & _ & H & _).
  destruct (H Hl) as [-> Hs]; exists d; auto.
Qed.

Definition gone_entries (now : Z -> Z) (seqs : list Z) : list log_entry :=
  map (fun q => LInval (now q) q) seqs.
Lemma write_gone now seqs : forall d,
  (forall q, in_nat63 (now q)) -> Forall in_nat63 seqs ->
  writeFileInvalidationEntries now {| lf_data := d; lf_pos := zlen d |} seqs =
  Ret {| lf_data := d ++ log_bytes (gone_entries now seqs);
         lf_pos := zlen (d ++ log_bytes (gone_entries now seqs)) |}.
Proof.
  induction seqs as [|q seqs IH]; intros d Hn Hs; cbn [writeFileInvalidationEntries].
  - cbn [gone_entries map log_bytes flat_map]; rewrite app_nil_r; reflexivity.
  - inversion Hs as [|? ? Hq Hs']; subst.
    assert (Hf : entry_fields_ok (LInval (now q) q)) by (cbn; auto).
    destruct (write_entry (LInval (now q) q) Hf) as (d' & E & Es).
    { apply entry_fits; auto. }
    { intros; discriminate. }
    cbn [encode_of] in E; fold entry_buf; rewrite E; cbn [obind fst snd]; rewrite Es, fwrite_end.
    rewrite IH by assumption.
    change (gone_entries now (q :: seqs)) with (LInval (now q) q :: gone_entries now seqs).
    change (log_bytes (?x :: ?l)) with (entry_bytes x ++ log_bytes l).
    rewrite !app_assoc; reflexivity.
Qed.

Definition merged (f : file_chunks) : file_chunks :=
  {| fc_seqId := fc_seqId f; fc_fileName := fc_fileName f; fc_fileSize := fc_fileSize f;
     fc_chunks := mergeChunks (fc_chunks f) |}.

Lemma merge_within l d : Forall (within d) l -> Forall (within d) (mergeChunks l).
Proof.
  intros H.
  assert (Hs : Forall (within d) (sort_intervals l)).
  { eapply Permutation_Forall; [apply Permutation_sym, sort_perm|exact H]. }
  unfold mergeChunks; destruct (sort_intervals l) as [|c r]; [constructor|].
  cbn [merge_sorted]; clear H; revert c Hs; induction r as [|b r IH]; intros c Hs; cbn [merge_loop].
  - exact Hs.
  - inversion Hs as [|? ? Hc Hs']; inversion Hs' as [|? ? Hb Hs'']; subst.
    destruct (iv_end c <? iv_start b).
    + constructor; [exact Hc|apply IH, Hs'].
    + apply IH; constructor; [|exact Hs'']; unfold within in *; cbn [iv_start iv_end]; lia.
Qed.

Lemma files_seq o seg s : describes o seg s ->
  forall e, In e (p_files s) -> fc_seqId (snd e) = fst e.
Proof.
  intros D [k f] H; cbn [fst snd].
  apply (In_zfind _ _ _ (d_sorted _ _ _ D)) in H.
  destruct (d_files _ _ _ D _ _ H) as (n & z & p & _ & _ & E & _); exact E.
Qed.

Lemma describes_faithful o seg s : describes o seg s ->
  faithful o seg (map (fun e => merged (snd e)) (p_files s)).
Proof.
  intros D; split.
  - intros f H; apply in_map_iff in H; destruct H as [[k g] [<- H]]; cbn [snd].
    apply (In_zfind _ _ _ (d_sorted _ _ _ D)) in H.
    destruct (d_files _ _ _ D _ _ H) as (n & z & p & I & P & E1 & E2 & E3 & E4).
    cbn [merged fc_seqId fc_fileName fc_fileSize fc_chunks]; rewrite E1.
    exists n, z, p; split; [exact I|]; split; [exact P|]; split; [exact E2|].
    destruct (merge_spec (fc_chunks g)) as (M1 & M2 & M3).
    { eapply Forall_impl; [|exact E4]; intros c [Hc _]; exact Hc. }
    split; [|split; [exact M1|]].
    + intros x; rewrite M3, E3; apply covered_pieces.
    + apply merge_within in E4; rewrite Forall_forall in E4; exact E4.
  - intros seq name size post d I P.
    destruct (d_all _ _ _ D _ _ _ _ I) as [H|H].
    + destruct (zfind seq (p_files s)) as [g|] eqn:Eg; [|congruence].
      destruct (d_files _ _ _ D _ _ Eg) as (n & z & p & I' & P' & E1 & E2 & E3 & E4).
      destruct (incarnation_unique _ _ _ _ _ _ _ _ I I') as (<- & <- & <-).
      exists (merged g); split.
      { apply in_map_iff; exists (seq, g); split; [reflexivity|apply zfind_In, Eg]. }
      cbn [merged fc_seqId fc_fileName fc_fileSize fc_chunks].
      split; [exact E1|]; split; [exact E2|]; split.
      { destruct P as [P _], P' as [P' _]; congruence. }
      destruct (merge_spec (fc_chunks g)) as (M1 & M2 & M3).
      { eapply Forall_impl; [|exact E4]; intros c [Hc _]; exact Hc. }
      intros x; rewrite M3, E3; apply covered_pieces.
    + destruct (d_invalid _ _ _ D _ H) as (n & z & p & I' & P').
      destruct (incarnation_unique _ _ _ _ _ _ _ _ I I') as (<- & <- & <-).
      exfalso; exact (P' _ P).
  - rewrite map_map; cbn [merged fc_seqId].
    pose proof (d_sorted _ _ _ D) as S; unfold ksorted in S.
    replace (map (fun x => fc_seqId (snd x)) (p_files s)) with (map fst (p_files s)); [exact S|].
    apply map_ext_in; intros e He; symmetry; eapply files_seq; eauto.
Qed.

Lemma session_incl o es seg : current_session o es seg -> incl seg es.
Proof.
  intros [_ [[-> _]|(pre & r & sk & h & rest & -> & _)]]; [apply incl_refl|].
  intros x Hx; apply in_or_app; right; right; apply in_or_app; right; exact Hx.
Qed.
Lemma incarnation_In seg seq name size post : incarnation seg seq name size post ->
  exists ts, In (LCreate ts name seq size) seg.
Proof. intros (pre & ts & -> & _); exists ts; apply in_elt. Qed.

Lemma gone_invalid o seg s seq : describes o seg s ->
  (zmem seq (p_invalid s) = true <-> gone o seg seq).
Proof.
  intros D; split.
  - intros H; destruct (d_invalid _ _ _ D _ H) as (n & z & p & I & P); exists n, z, p; auto.
  - intros (n & z & p & I & P).
    destruct (d_all _ _ _ D _ _ _ _ I) as [H|H]; [|exact H].
    destruct (zfind seq (p_files s)) as [g|] eqn:Eg; [|congruence].
    destruct (d_files _ _ _ D _ _ Eg) as (n' & z' & p' & I' & P' & _).
    destruct (incarnation_unique _ _ _ _ _ _ _ _ I I') as (<- & <- & <-).
    exfalso; exact (P _ P').
Qed.

Lemma torn_nil : torn []. Proof. left; reflexivity. Qed.

(** parseLog on a log of well-formed entries. *)
Lemma recover now o es ip :
  po_parseOnly o = false -> Forall entry_ok es -> Forall block_in_range es ->
  (forall q, in_nat63 (now q)) ->
  match run o (bodies es) OK (p_init ip) with
  | Ret (inl (st, s)) =>
      inv o es st s /\ st <> INVALID_LOG /\
      parseLog now o (file_of (log_bytes es)) ip =
      if st =? OK
      then Ret {| pr_status := OK; pr_infos := map (fun e => merged (snd e)) (p_files s);
                  pr_ip := p_ip s;
                  pr_file := {| lf_data := log_bytes (es ++ gone_entries now (p_invalid s));
                                lf_pos := zlen (log_bytes (es ++ gone_entries now (p_invalid s))) |} |}
      else Ret {| pr_status := st; pr_infos := []; pr_ip := p_ip s;
                  pr_file := {| lf_data := log_bytes es; lf_pos := zlen (log_bytes es) |} |}
  | Ret (inr s) => exists p,
      parseLog now o (file_of (log_bytes es)) ip =
      Ret {| pr_status := INVALID_LOG; pr_infos := []; pr_ip := p_ip s;
             pr_file := {| lf_data := log_bytes es; lf_pos := p |} |}
  | _ => False
  end.
Proof.
  intros Hp Hok Hb Hn.
  pose proof (parse_torn now o (bodies es) [] ip (bodies_ok es Hok) torn_nil) as P.
  cbv zeta in P; rewrite app_nil_r, <- log_frames, Hp in P.
  pose proof (run_inv o es [] OK (p_init ip) Hp Hok Hb (inv_init o ip)) as R.
  destruct (run o (bodies es) OK (p_init ip)) as [[[st s]|s]| | ] eqn:Er;
    [|exact P|destruct R as [[? ?]|(? & ? & ? & ?)]; discriminate
     |destruct R as [[? ?]|(? & ? & ? & ?)]; discriminate].
  destruct R as [[? ?]|(st' & s' & E & I)]; [discriminate|]; injection E as <- <-; cbn [app] in I.
  split; [exact I|]; split; [destruct (i_status _ _ _ _ I); subst; discriminate|].
  rewrite P; destruct (Z.eqb_spec st OK) as [->|Hst]; [|reflexivity].
  destruct (i_ok _ _ _ _ I eq_refl) as (seg & Hc & D & _).
  rewrite write_gone, log_bytes_app; [reflexivity|exact Hn|].
  apply Forall_forall; intros q Hq; apply zmem_In in Hq.
  destruct (d_invalid _ _ _ D _ Hq) as (n & z & p & Inc & _).
  destruct (incarnation_In _ _ _ _ _ Inc) as [ts Hin]; apply (session_incl _ _ _ Hc) in Hin.
  rewrite Forall_forall in Hok; destruct (Hok _ Hin) as [Hfo _]; cbn [entry_fields_ok] in Hfo; tauto.
Qed.

(** C19. *)
Lemma recovery_faithful now o es ip :
  po_parseOnly o = false -> Forall entry_ok es -> Forall block_in_range es ->
  (forall q, in_nat63 (now q)) ->
  exists r, parseLog now o (file_of (log_bytes es)) ip = Ret r /\
    (pr_status r = OK ->
       exists seg missing, current_session o es seg /\ faithful o seg (pr_infos r) /\
         (forall q, In q missing <-> gone o seg q) /\
         holds (pr_file r) (es ++ map (fun q => LInval (now q) q) missing)) /\
    (pr_status r <> OK -> pr_infos r = [] /\ lf_data (pr_file r) = log_bytes es).
Proof.
  intros Hp Hok Hb Hn; pose proof (recover now o es ip Hp Hok Hb Hn) as H.
  destruct (run o (bodies es) OK (p_init ip)) as [[[st s]|s]| | ]; try contradiction.
  - destruct H as (I & Hst & E); rewrite E.
    destruct (Z.eqb_spec st OK) as [->|Hs].
    + eexists; split; [reflexivity|]; cbn [pr_status pr_infos pr_file]; split; [intros _|congruence].
      destruct (i_ok _ _ _ _ I eq_refl) as (seg & Hc & D & _).
      exists seg, (p_invalid s); split; [exact Hc|]; split; [apply describes_faithful, D|].
      split; [intros q; rewrite <- zmem_In; apply gone_invalid, D|split; reflexivity].
    + eexists; split; [reflexivity|]; cbn [pr_status pr_infos pr_file]; split; [congruence|auto].
  - destruct H as [p E]; rewrite E; eexists; split; [reflexivity|].
    cbn [pr_status pr_infos pr_file]; split; [discriminate|auto].
Qed.

(** ---- C20 ---- *)
Lemma last_reset {o} es1 r es2 a seg :
  resets o r -> Forall (fun e => ~ resets o e) seg -> es1 ++ r :: es2 = a ++ seg ->
  exists c, es2 = c ++ seg.
Proof.
  intros Hr Hs E.
  destruct (Nat.le_gt_cases (length seg) (length es2)) as [Hl|Hl].
  - exists (firstn (length es2 - length seg) es2).
    assert (E2 : skipn (length a) (es1 ++ r :: es2) = seg).
    { rewrite E, skipn_app, Nat.sub_diag, skipn_all; reflexivity. }
    assert (La : (length a = length es1 + 1 + (length es2 - length seg))%nat).
    { apply (f_equal (@length _)) in E; rewrite !app_length in E; cbn [length] in E; lia. }
    rewrite skipn_app, La, (skipn_all2 es1) in E2 by lia; cbn [app] in E2.
    replace (length es1 + 1 + (length es2 - length seg) - length es1)%nat
      with (S (length es2 - length seg)) in E2 by lia; cbn [skipn] in E2.
    rewrite <- E2 at 2; symmetry; apply firstn_skipn.
  - exfalso; assert (Hin : In r seg).
    { assert (E2 : skipn (length a) (es1 ++ r :: es2) = seg).
      { rewrite E, skipn_app, Nat.sub_diag, skipn_all; reflexivity. }
      assert (La : (length a <= length es1)%nat).
      { apply (f_equal (@length _)) in E; rewrite !app_length in E; cbn [length] in E; lia. }
      rewrite <- E2, skipn_app; replace (length a - length es1)%nat with 0%nat by lia.
      apply in_elt. }
    rewrite Forall_forall in Hs; exact (Hs r Hin Hr).
Qed.

Lemma session_after_reset o es1 r es2 seg :
  resets o r -> current_session o (es1 ++ r :: es2) seg ->
  exists c h rest, es2 = c ++ h :: rest /\ matches o h.
Proof.
  intros Hr [Hs [[E _]|(pre & r' & sk & h & rest & E & _ & _ & -> & Hm)]].
  - exfalso; rewrite Forall_forall in Hs; apply (Hs r); [rewrite <- E; apply in_elt|exact Hr].
  - replace (pre ++ r' :: sk ++ h :: rest) with ((pre ++ r' :: sk) ++ h :: rest) in E
      by (rewrite <- app_assoc; reflexivity).
    destruct (last_reset es1 r es2 _ _ Hr Hs E) as [c ->]; eauto.
Qed.

Lemma recovery_refused now o es1 r es2 ip :
  po_parseOnly o = false -> Forall entry_ok (es1 ++ r :: es2) ->
  Forall block_in_range (es1 ++ r :: es2) -> (forall q, in_nat63 (now q)) ->
  resets o r -> Forall (fun e => ~ matches o e) es2 ->
  exists res, parseLog now o (file_of (log_bytes (es1 ++ r :: es2))) ip = Ret res /\
    pr_status res <> OK /\ pr_infos res = [].
Proof.
  intros Hp Hok Hb Hn Hr Hm.
  destruct (recovery_faithful now o _ ip Hp Hok Hb Hn) as (res & E & H1 & H2).
  exists res; split; [exact E|].
  destruct (Z.eq_dec (pr_status res) OK) as [Hs|Hs]; [exfalso|split; [exact Hs|apply H2, Hs]].
  destruct (H1 Hs) as (seg & _ & Hc & _).
  destruct (session_after_reset _ _ _ _ _ Hr Hc) as (c & h & rest & -> & Hh).
  apply Forall_app in Hm; destruct Hm as [_ Hm]; inversion Hm; subst; contradiction.
Qed.

Lemma run_app o b1 : forall b2 st s,
  run o (b1 ++ b2) st s =
  obind (run o b1 st s) (fun x => match x with
    | inl (st', s') => run o b2 st' s'
    | inr s' => Ret (inr s') end).
Proof.
  induction b1 as [|b b1 IH]; intros b2 st s; cbn [app run obind]; [reflexivity|].
  destruct (parseEntry o b st s) as [[st1 s1]| | ]; cbn [obind]; [|reflexivity|reflexivity].
  destruct (st1 =? INVALID_LOG); [reflexivity|apply IH].
Qed.

(** After a reset and until a matching header, everything is cleared. *)
Lemma run_skip o skip : forall st s, po_parseOnly o = false -> Forall entry_ok skip ->
  Forall (fun e => ~ matches o e) skip ->
  st = INCONSISTENT_DIRECTORY -> p_files s = [] -> p_sizes s = [] -> p_invalid s = [] ->
  (exists s', run o (bodies skip) st s = Ret (inr s')) \/
  (exists s', run o (bodies skip) st s = Ret (inl (INCONSISTENT_DIRECTORY, s')) /\
     p_files s' = [] /\ p_sizes s' = [] /\ p_invalid s' = []).
Proof.
  induction skip as [|e skip IH]; intros st s Hp Hok Hm -> F1 F2 F3; cbn [bodies map run].
  - right; eauto.
  - inversion Hok as [|? ? He Hok']; inversion Hm as [|? ? Hme Hm']; subst.
    rewrite parse_body by assumption.
    destruct e; cbn [estep];
      change (INCONSISTENT_DIRECTORY =? INCONSISTENT_DIRECTORY) with true; cbv iota; cbn [obind];
      change (INCONSISTENT_DIRECTORY =? INVALID_LOG) with false; cbv iota;
      try (apply IH; auto; fail).
    destruct (negb (version =? 2) || (zlen ip =? 0)); cbn [obind].
    + left; rewrite Z.eqb_refl; eauto.
    + destruct (matchb o rid config) eqn:Em.
      * exfalso; apply Hme; apply matchb_spec, Em.
      * cbn [obind]; change (INCONSISTENT_DIRECTORY =? INVALID_LOG) with false; cbv iota.
        apply IH; auto.
Qed.

Lemma recovery_restarts now o es1 r skip h es3 ip :
  po_parseOnly o = false ->
  Forall entry_ok (es1 ++ r :: skip ++ h :: es3) ->
  Forall block_in_range (es1 ++ r :: skip ++ h :: es3) ->
  (forall q, in_nat63 (now q)) ->
  resets o r -> Forall (fun e => ~ matches o e) skip -> matches o h ->
  exists res res', parseLog now o (file_of (log_bytes (es1 ++ r :: skip ++ h :: es3))) ip = Ret res /\
    parseLog now o (file_of (log_bytes (h :: es3))) ip = Ret res' /\
    (pr_status res = OK -> pr_status res' = OK /\ pr_infos res = pr_infos res' /\
                           pr_ip res = pr_ip res').
Proof.
  intros Hp Hok Hb Hn Hr Hm Hh.
  pose proof (recover now o _ ip Hp Hok Hb Hn) as A.
  assert (Hok' := Hok); assert (Hb' := Hb).
  apply Forall_app in Hok'; destruct Hok' as [Hok1 Hok']; inversion Hok' as [|? ? Hokr Hok'']; subst.
  apply Forall_app in Hok''; destruct Hok'' as [Hoks Hokh].
  apply Forall_app in Hb'; destruct Hb' as [Hb1 Hb']; inversion Hb' as [|? ? Hbr Hb'']; subst.
  apply Forall_app in Hb''; destruct Hb'' as [Hbs Hbh].
  pose proof (recover now o (h :: es3) ip Hp Hokh Hbh Hn) as B.
  assert (G : (exists s', run o (bodies (es1 ++ r :: skip ++ h :: es3)) OK (p_init ip) = Ret (inr s')) \/
          run o (bodies (es1 ++ r :: skip ++ h :: es3)) OK (p_init ip) =
          run o (bodies (h :: es3)) OK (p_init ip)).
  { replace (bodies (es1 ++ r :: skip ++ h :: es3))
      with (bodies es1 ++ bodies [r] ++ bodies skip ++ bodies (h :: es3))
      by (unfold bodies; rewrite !map_app; cbn [map app]; rewrite map_app; reflexivity).
    rewrite run_app.
    destruct (run_inv o es1 [] OK (p_init ip) Hp Hok1 Hb1 (inv_init o ip))
      as [[s1 E1]|(st1 & s1 & E1 & I1)]; rewrite E1; cbn [obind]; [left; eauto|].
    rewrite run_app; cbn [bodies map run]; rewrite parse_body by assumption.
    destruct (estep_safe o _ _ _ r I1 (proj1 Hokr) Hbr) as [[st2 s2] E2]; rewrite E2; cbn [obind].
    destruct (Z.eqb_spec st2 INVALID_LOG) as [|Hne]; [left; cbn [obind]; eauto|].
    cbn [obind run].
    assert (I2 : st2 = INCONSISTENT_DIRECTORY).
    { pose proof (inv_step _ _ _ _ _ _ _ I1 (proj1 Hokr) E2 Hne) as I2; cbn [app] in I2.
      destruct (i_status _ _ _ _ I2) as [-> | ->]; [exfalso|reflexivity].
      destruct (i_ok _ _ _ _ I2 eq_refl) as (seg & Hc & _).
      destruct (session_after_reset _ _ _ _ _ Hr Hc) as (c & h' & rest & E & _).
      destruct c; discriminate. }
    pose proof (inv_step _ _ _ _ _ _ _ I1 (proj1 Hokr) E2 Hne) as Iv.
    destruct (i_bad _ _ _ _ Iv I2) as (F1 & F2 & F3 & _).
    rewrite run_app.
    destruct (run_skip o skip st2 s2 Hp Hoks Hm I2 F1 F2 F3) as [[s3 E3]|(s3 & E3 & G1 & G2 & G3)];
      rewrite E3; cbn [obind]; [left; eauto|].
    inversion Hokh as [|? ? Hokh1 _]; subst.
    cbn [bodies map run]; rewrite !parse_body by assumption.
    destruct h as [ts v rid ip' c| | | | | ]; try contradiction; cbn [estep matches] in *.
    destruct (negb (v =? 2) || (zlen ip' =? 0)); cbn [obind].
    - left; rewrite Z.eqb_refl; eauto.
    - apply matchb_spec in Hh; rewrite Hh; cbn [obind].
      change (OK =? INVALID_LOG) with false; cbv iota; right.
      rewrite G1, G2, G3; reflexivity. }
  destruct G as [[s' G]|G].
  - rewrite G in A; destruct A as [p A].
    destruct (run o (bodies (h :: es3)) OK (p_init ip)) as [[[st s]|s]| | ]; try contradiction.
    + destruct B as (_ & _ & B); destruct (st =? OK); do 2 eexists; (split; [exact A|]);
        (split; [exact B|]); cbn [pr_status]; discriminate.
    + destruct B as [p' B]; do 2 eexists; (split; [exact A|]); (split; [exact B|]);
        cbn [pr_status]; discriminate.
  - rewrite G in A.
    destruct (run o (bodies (h :: es3)) OK (p_init ip)) as [[[st s]|s]| | ]; try contradiction.
    + destruct A as (_ & _ & A), B as (_ & _ & B); destruct (st =? OK); do 2 eexists;
        (split; [exact A|]); (split; [exact B|]); cbn [pr_status pr_infos pr_ip]; auto.
    + destruct A as [p A], B as [p' B]; do 2 eexists; (split; [exact A|]); (split; [exact B|]);
        cbn [pr_status]; discriminate.
Qed.

Lemma write_dir_inval ts m es : in_nat63 ts -> tm_open m = true -> holds (tm_file m) es ->
  exists m', invalidateDirectory ts m = Ret m' /\ holds (tm_file m') (es ++ [LDirInval ts]) /\
    tm_status m' = INCONSISTENT_DIRECTORY /\ tm_open m' = true.
Proof.
  intros Ht Ho [H1 H2]; unfold invalidateDirectory; rewrite Ho; cbn [negb].
  destruct (write_entry (LDirInval ts)) as (d & E & Es);
    [exact Ht|apply entry_fits; auto|intros; discriminate|].
  cbn [encode_of] in E; rewrite E; cbn [obind fst snd]; rewrite Es.
  eexists; split; [reflexivity|]; cbn [tm_file tm_status tm_open].
  destruct (tm_file m) as [fd fp]; cbn [lf_data lf_pos] in H1, H2; subst fd fp.
  rewrite fwrite_end; split; [|auto].
  unfold holds; cbn [lf_data lf_pos]; rewrite log_bytes_app; cbn [log_bytes flat_map].
  rewrite app_nil_r; split; reflexivity.
Qed.

Lemma sender_changed now ts disabled cur m es o ip :
  in_nat63 ts -> (forall q, in_nat63 (now q)) ->
  tm_open m = true -> holds (tm_file m) es -> Forall entry_ok es -> Forall block_in_range es ->
  po_parseOnly o = false ->
  exists ok m', verifySenderIp ts disabled cur m = Ret (ok, m') /\
    (ok = true <-> disabled = true \/ tm_ip m = [] \/ tm_ip m = cur) /\
    (ok = true -> tm_file m' = tm_file m) /\
    (ok = false -> holds (tm_file m') (es ++ [LDirInval ts]) /\
       exists res, parseLog now o (file_of (lf_data (tm_file m'))) ip = Ret res /\
         pr_status res <> OK /\ pr_infos res = []).
Proof.
  intros Ht Hn Ho Hh Hok Hb Hp; unfold verifySenderIp; rewrite Ho; cbn [negb].
  destruct (disabled || (zlen (tm_ip m) =? 0) || str_eqb (tm_ip m) cur) eqn:Ec.
  - do 2 eexists; split; [reflexivity|]; cbn [tm_file]; split; [|split; [auto|discriminate]].
    split; [intros _|auto].
    apply orb_true_iff in Ec; destruct Ec as [Ec|Ec].
    + apply orb_true_iff in Ec; destruct Ec as [Ec|Ec]; [auto|].
      right; left; apply Z.eqb_eq in Ec; destruct (tm_ip m) as [|z l]; [reflexivity|].
      rewrite zlen_cons in Ec; pose proof (zlen_nonneg l); lia.
    + right; right; apply str_eqb_eq, Ec.
  - destruct (write_dir_inval ts m es Ht Ho Hh) as (m' & E & Hh' & _); rewrite E; cbn [obind].
    do 2 eexists; split; [reflexivity|]; cbn [tm_file]; split; [|split; [discriminate|]].
    + split; [discriminate|]; intros H.
      apply orb_false_iff in Ec; destruct Ec as [Ec E3]; apply orb_false_iff in Ec; destruct Ec as [E1 E2].
      destruct H as [H|[H|H]].
      * congruence.
      * rewrite H in E2; discriminate.
      * rewrite H, str_eqb_refl in E3; discriminate.
    + intros _; split; [exact Hh'|]; destruct Hh' as [Hd _]; rewrite Hd.
      apply recovery_refused; auto; cbn [resets]; auto.
      * apply Forall_app; split; [exact Hok|constructor; [|constructor]].
        split; [exact Ht|apply entry_fits; auto].
      * apply Forall_app; split; [exact Hb|constructor; [exact I|constructor]].
Qed.

(** A log that recovery refuses, and how it is left. *)
Lemma inconsistent_marked now ts o m es code infos m' o' ip :
  in_nat63 ts -> (forall q, in_nat63 (now q)) -> po_parseOnly o = false -> po_parseOnly o' = false ->
  tm_open m = true -> tm_file m = file_of (log_bytes es) -> Forall entry_ok es -> Forall block_in_range es ->
  parseVerifyAndFix now ts o m = Ret (code, infos, m') -> code = INCONSISTENT_DIRECTORY ->
  infos = [] /\ tm_open m' = true /\ tm_status m' = INCONSISTENT_DIRECTORY /\
  lf_data (tm_file m') = log_bytes (es ++ [LDirInval ts]) /\
  exists res, parseLog now o' (file_of (lf_data (tm_file m'))) ip = Ret res /\
    pr_status res <> OK /\ pr_infos res = [].
Proof.
  intros Ht Hn Hp Hp' Ho Hf Hok Hb E Hc. unfold parseVerifyAndFix in E. rewrite Ho, Hf in E. cbn [negb] in E.
  destruct (recovery_faithful now o es (tm_ip m) Hp Hok Hb Hn) as (r & Er & _ & Hne).
  pose proof (recover now o es (tm_ip m) Hp Hok Hb Hn) as R.
  rewrite Er in E. cbn [obind] in E.
  destruct (Z.eqb_spec (pr_status r) INVALID_LOG) as [E1|E1]; [injection E as <- _ _; discriminate Hc|].
  rewrite Hp in E. cbn [negb] in E. rewrite andb_true_r in E.
  destruct (Z.eqb_spec (pr_status r) INCONSISTENT_DIRECTORY) as [E2|E2]; [|injection E as <- _ _; congruence].
  destruct Hne as [I1 I2]; [rewrite E2; discriminate|].
  assert (Hh : holds (pr_file r) es).
  { split; [exact I2|].
    destruct (run o (bodies es) OK (p_init (tm_ip m))) as [[[st s]|s]| |]; try contradiction.
    - destruct R as (_ & _ & R). rewrite Er in R.
      destruct (Z.eqb_spec st OK) as [->|Hst]; injection R as ->; [cbn [pr_status] in E2; discriminate E2|].
      cbn [pr_file lf_pos]. reflexivity.
    - destruct R as [p R]. rewrite Er in R. injection R as ->. cbn [pr_status] in E2. discriminate E2. }
  match type of E with obind (invalidateDirectory ts ?m1) _ = _ =>
    destruct (write_dir_inval ts m1 es Ht eq_refl Hh) as (m2 & Ew & Hh2 & Hs2 & Ho2) end.
  rewrite Ew in E. cbn [obind] in E. injection E as <- <- <-.
  split; [exact I1|]. split; [exact Ho2|]. split; [exact Hs2|]. destruct Hh2 as [Hd _]. split; [exact Hd|].
  rewrite Hd. apply recovery_refused; auto.
  - apply Forall_app; split; [exact Hok|constructor; [|constructor]]. split; [exact Ht|apply entry_fits; auto].
  - apply Forall_app; split; [exact Hb|constructor; [exact I|constructor]].
  - exact I.
Qed.

(** ---- C21 ---- *)
Lemma zemplace_end {A} k (a : A) m : Forall (fun e => fst e < k) m -> zemplace k a m = m ++ [(k, a)].
Proof.
  induction m as [|[q x] m IH]; intros H; cbn [zemplace app]; [reflexivity|].
  inversion H as [|? ? H1 H2]; subst; cbn [fst] in H1.
  destruct (Z.eqb_spec k q); [lia|]; destruct (Z.ltb_spec k q); [lia|]; rewrite IH; auto.
Qed.
Lemma zassign_end {A} k (a b : A) m : Forall (fun e => fst e < k) m ->
  zassign k b (m ++ [(k, a)]) = m ++ [(k, b)].
Proof.
  intros H; unfold zassign; rewrite map_app; cbn [map fst]; rewrite Z.eqb_refl; f_equal.
  rewrite <- (map_id m) at 2; apply map_ext_in; intros [q x] Hi; cbn [fst].
  rewrite Forall_forall in H; specialize (H _ Hi); cbn [fst] in H.
  destruct (Z.eqb_spec q k); [lia|reflexivity].
Qed.
Lemma zfind_end {A} k (a : A) m : Forall (fun e => fst e < k) m -> zfind k (m ++ [(k, a)]) = Some a.
Proof.
  induction m as [|[q x] m IH]; intros H; cbn [zfind app].
  - rewrite Z.eqb_refl; reflexivity.
  - inversion H as [|? ? H1 H2]; subst; cbn [fst] in H1.
    destruct (Z.eqb_spec k q); [lia|auto].
Qed.
Lemma zfind_none {A} k (m : list (Z * A)) : Forall (fun e => fst e < k) m -> zfind k m = None.
Proof.
  induction m as [|[q x] m IH]; intros H; cbn [zfind]; [reflexivity|].
  inversion H as [|? ? H1 H2]; subst; cbn [fst] in H1.
  destruct (Z.eqb_spec k q); [lia|auto].
Qed.

Definition compact_entries (now : Z -> Z) (fs : list file_chunks) : list log_entry :=
  flat_map (fun f => [LCreate (now (fc_seqId f)) (fc_fileName f) (fc_seqId f) (fc_fileSize f);
                      LBlock (now (fc_seqId f)) (fc_seqId f) 0 (fc_fileSize f)]) fs.

(** A file description that compaction writes back. *)
Definition settled (o : popts) (f : file_chunks) : Prop :=
  fc_chunks f = [{| iv_start := 0; iv_end := fc_fileSize f |}] /\
  po_disk o (fc_fileName f) = Some (fc_fileSize f) /\
  in_nat63 (fc_fileSize f) /\ in_nat63 (fc_seqId f) /\ zlen (fc_fileName f) <= 4097.

Lemma compact_entries_ok now o fs : (forall q, in_nat63 (now q)) -> Forall (settled o) fs ->
  Forall entry_ok (compact_entries now fs) /\ Forall block_in_range (compact_entries now fs).
Proof.
  intros Hn H; induction H as [|f fs (H1 & H2 & H3 & H4 & H5) _ IH]; [split; constructor|].
  destruct IH as [IH1 IH2]; cbn [compact_entries flat_map app].
  assert (F1 : entry_fields_ok (LCreate (now (fc_seqId f)) (fc_fileName f) (fc_seqId f) (fc_fileSize f))).
  { cbn; repeat split; try apply Hn; try apply H3; try apply H4.
    change (2 ^ 63) with 9223372036854775808; lia. }
  assert (F2 : entry_fields_ok (LBlock (now (fc_seqId f)) (fc_seqId f) 0 (fc_fileSize f))).
  { cbn; repeat split; try apply Hn; try apply H3; try apply H4.
    all: change (2 ^ 63) with 9223372036854775808; lia. }
  split; (constructor; [|constructor]); auto.
  - split; [exact F1|apply entry_fits; auto].
  - split; [exact F2|apply entry_fits; auto].
  - exact I.
  - cbn; unfold in_nat63 in H3; lia.
Qed.

Lemma run_compact now o fs : forall done s,
  po_parseOnly o = false -> (fs <> [] -> po_dirTree o = false) -> (forall q, in_nat63 (now q)) ->
  Forall (settled o) fs -> p_hdr s = true -> p_invalid s = [] ->
  p_files s = map (fun f => (fc_seqId f, f)) done ->
  StronglySorted Z.lt (map fc_seqId (done ++ fs)) ->
  exists s', run o (bodies (compact_entries now fs)) OK s = Ret (inl (OK, s')) /\
    p_invalid s' = [] /\ p_files s' = map (fun f => (fc_seqId f, f)) (done ++ fs) /\ p_ip s' = p_ip s.
Proof.
  induction fs as [|f fs IH]; intros done s Hp Ht Hn Hs Hh Hi Hf Hss.
  - cbn [compact_entries flat_map bodies map run]; exists s; rewrite app_nil_r; auto.
  - assert (Hok := compact_entries_ok now o [f] Hn).
    inversion Hs as [|? ? Hsf Hs']; subst.
    destruct Hok as [Hok _]; [constructor; [exact Hsf|constructor]|].
    cbn [compact_entries flat_map app] in Hok; inversion Hok as [|? ? Hok1 Hok']; inversion Hok' as [|? ? Hok2 _]; subst.
    destruct Hsf as (H1 & H2 & H3 & H4 & H5).
    assert (Hlt : Forall (fun e => fst e < fc_seqId f) (p_files s)).
    { rewrite Hf; apply Forall_forall; intros e He; apply in_map_iff in He; destruct He as [g [<- Hg]].
      cbn [fst]; rewrite map_app in Hss; cbn [map] in Hss.
      clear - Hss Hg; induction done as [|d done IH]; [destruct Hg|].
      cbn [map app] in Hss; inversion Hss as [|? ? Hs1 Hs2]; subst; destruct Hg as [->|Hg]; [|auto].
      rewrite Forall_forall in Hs2; apply Hs2, in_elt. }
    change (bodies (compact_entries now (f :: fs))) with
      (entry_body (LCreate (now (fc_seqId f)) (fc_fileName f) (fc_seqId f) (fc_fileSize f)) ::
       entry_body (LBlock (now (fc_seqId f)) (fc_seqId f) 0 (fc_fileSize f)) ::
       bodies (compact_entries now fs)).
    cbn [run]; rewrite parse_body by assumption; cbn [estep].
    change (OK =? INCONSISTENT_DIRECTORY) with false; cbv iota.
    rewrite Hh, (Ht ltac:(discriminate)), Hi, (zfind_none _ _ Hlt), H2; cbn [negb orb zmem existsb].
    rewrite Z.leb_refl, orb_true_r; cbn [obind]; change (OK =? INVALID_LOG) with false; cbv iota.
    rewrite parse_body by assumption; cbn [estep].
    change (OK =? INCONSISTENT_DIRECTORY) with false; cbv iota.
    cbn [p_hdr p_invalid p_files p_sizes p_ip negb orb zmem existsb].
    rewrite (Ht ltac:(discriminate)).
    rewrite zemplace_end, zfind_end by exact Hlt; cbn [fc_fileSize fc_seqId fc_fileName fc_chunks].
    unfold in_nat63 in H3.
    destruct (Z.leb_spec (2 ^ 63) (0 + fc_fileSize f)); [lia|].
    destruct (Z.ltb_spec (fc_fileSize f) (0 + fc_fileSize f)); [lia|].
    unfold mkInterval; destruct (Z.ltb_spec (0 + fc_fileSize f) 0); [lia|]; cbn [obind].
    change (OK =? INVALID_LOG) with false; cbv iota.
    rewrite zassign_end by exact Hlt; cbn [app]; rewrite Z.add_0_l.
    destruct (IH (done ++ [f])
      {| p_hdr := true; p_files := p_files s ++ [(fc_seqId f, f)];
         p_sizes := zemplace (fc_seqId f) (fc_fileSize f) (p_sizes s);
         p_invalid := []; p_ip := p_ip s |}) as (s' & R1 & R2 & R3 & R4); auto.
    + intros _; apply Ht; discriminate.
    + cbn [p_files]; rewrite Hf, map_app; reflexivity.
    + rewrite <- app_assoc; exact Hss.
    + exists s'; rewrite <- app_assoc in R3; split; [|auto].
      rewrite <- R1; do 3 f_equal; cbn; do 3 f_equal.
      destruct f; cbn in *; rewrite H1; reflexivity.
Qed.

Lemma merged_settled o f : settled o f -> merged f = f.
Proof. intros (H & _); destruct f; cbn in *; subst; reflexivity. Qed.

(** Recovery from a header and the compact entries. *)
Lemma recover_compact now now' o ts ip fs ip0 :
  po_parseOnly o = false -> (fs <> [] -> po_dirTree o = false) ->
  (forall q, in_nat63 (now q)) -> (forall q, in_nat63 (now' q)) ->
  Forall (settled o) fs -> StronglySorted Z.lt (map fc_seqId fs) -> ip <> [] ->
  entry_ok (LHeader ts 2 (po_rid o) ip (po_config o)) ->
  let es := LHeader ts 2 (po_rid o) ip (po_config o) :: compact_entries now fs in
  parseLog now' o (file_of (log_bytes es)) ip0 =
  Ret {| pr_status := OK; pr_infos := fs; pr_ip := ip;
         pr_file := {| lf_data := log_bytes es; lf_pos := zlen (log_bytes es) |} |}.
Proof.
  intros Hp Ht Hn Hn' Hs Hss Hip Hok es.
  destruct (compact_entries_ok now o fs Hn Hs) as [C1 C2].
  assert (R : exists s, run o (bodies es) OK (p_init ip0) = Ret (inl (OK, s)) /\
     p_invalid s = [] /\ p_files s = map (fun f => (fc_seqId f, f)) fs /\ p_ip s = ip).
  { subst es; cbn [bodies map run]; rewrite parse_body by assumption; cbn [estep].
    assert (Hz : zlen ip =? 0 = false).
    { apply Z.eqb_neq; destruct ip; [congruence|]; rewrite zlen_cons; pose proof (zlen_nonneg ip); lia. }
    rewrite Hz; cbn [negb orb Z.eqb Pos.eqb].
    unfold matchb; rewrite str_eqb_refl, Z.eqb_refl; cbn [andb obind].
    change (OK =? INVALID_LOG) with false; cbv iota.
    apply (run_compact now o fs []); auto. }
  destruct R as (s & R & R1 & R2 & R3).
  assert (H := recover now' o es ip0 Hp).
  rewrite R in H; destruct H as (_ & _ & H).
  { constructor; assumption. }
  { constructor; [exact I|assumption]. }
  { exact Hn'. }
  rewrite H; change (OK =? OK) with true; cbv iota.
  rewrite R1, R2, R3; cbn [gone_entries map]; rewrite app_nil_r; do 2 f_equal.
  rewrite map_map; cbn [snd]; rewrite <- (map_id fs) at 2; apply map_ext_in; intros f Hf.
  rewrite Forall_forall in Hs; eapply merged_settled; eauto.
Qed.

(** With the directory tree as the source of truth no file is ever taken from
    the log. *)
Lemma run_tree o es : forall st s st' s', po_parseOnly o = false -> Forall entry_ok es ->
  po_dirTree o = true -> p_files s = [] ->
  run o (bodies es) st s = Ret (inl (st', s')) -> p_files s' = [].
Proof.
  induction es as [|e es IH]; intros st s st' s' Hp Hok Ht Hf; cbn [bodies map run].
  - intros E; injection E as <- <-; exact Hf.
  - inversion Hok as [|? ? He Hok']; subst; rewrite parse_body by assumption.
    destruct (estep o e st s) as [[st1 s1]| | ] eqn:E; cbn [obind]; try discriminate.
    destruct (Z.eqb_spec st1 INVALID_LOG) as [|Hne]; [discriminate|].
    apply IH; auto.
    destruct e; cbn [estep] in E;
      repeat match type of E with (if ?c then _ else _) = _ => destruct c eqn:? end;
      try (injection E as <- <-; first [exact Hf|reflexivity|congruence]);
      rewrite Ht, orb_true_r in *; discriminate.
Qed.

Lemma add_entry now m q name size :
  tm_open m = true -> tm_headerWritten m = true ->
  entry_ok (LCreate (now q) name q size) -> entry_ok (LBlock (now q) q 0 size) ->
  obind (addFileCreationEntry (now q) name q size m) (fun m1 =>
    addBlockWriteEntry (now q) q 0 size m1) =
  Ret (tm_with_entries m (tm_entries m ++ [entry_bytes (LCreate (now q) name q size);
                                           entry_bytes (LBlock (now q) q 0 size)])).
Proof.
  intros Ho Hh [F1 L1] [F2 L2].
  destruct (write_entry _ F1 L1) as (d1 & E1 & S1); [intros; discriminate|].
  destruct (write_entry _ F2 L2) as (d2 & E2 & S2); [intros; discriminate|].
  unfold addFileCreationEntry, addBlockWriteEntry; rewrite Ho, Hh; cbn [negb orb].
  cbn [encode_of] in E1, E2; rewrite E1; cbn [obind].
  unfold emplace_entry at 1; cbn [fst snd].
  destruct (Z.ltb_spec (zlen (entry_bytes (LCreate (now q) name q size))) 0) as [Hz|_];
    [pose proof (zlen_nonneg (entry_bytes (LCreate (now q) name q size))); lia|].
  cbn [obind tm_with_entries tm_open tm_headerWritten]; rewrite Ho, Hh; cbn [negb orb].
  rewrite E2; cbn [obind]; unfold emplace_entry; cbn [fst snd].
  destruct (Z.ltb_spec (zlen (entry_bytes (LBlock (now q) q 0 size))) 0) as [Hz|_];
    [pose proof (zlen_nonneg (entry_bytes (LBlock (now q) q 0 size))); lia|].
  rewrite S1, S2; unfold tm_with_entries; cbn [tm_entries tm_open tm_file tm_rid tm_ip tm_config
    tm_status tm_headerWritten]; rewrite <- app_assoc; reflexivity.
Qed.

Lemma compact_adds now o fs : forall m, (forall q, in_nat63 (now q)) -> Forall (settled o) fs ->
  tm_open m = true -> tm_headerWritten m = true ->
  compact_add now fs m =
  Ret (tm_with_entries m (tm_entries m ++ map entry_bytes (compact_entries now fs))).
Proof.
  induction fs as [|f fs IH]; intros m Hn Hs Ho Hh; cbn [compact_add].
  - cbn [compact_entries flat_map map]; rewrite app_nil_r; destruct m; reflexivity.
  - inversion Hs as [|? ? Hsf Hs']; subst.
    destruct (compact_entries_ok now o [f] Hn) as [Hok _]; [constructor; [exact Hsf|constructor]|].
    cbn [compact_entries flat_map app] in Hok; inversion Hok as [|? ? Hok1 Hok']; inversion Hok' as [|? ? Hok2 _]; subst.
    pose proof (add_entry now m (fc_seqId f) (fc_fileName f) (fc_fileSize f) Ho Hh Hok1 Hok2) as A.
    destruct (addFileCreationEntry (now (fc_seqId f)) (fc_fileName f) (fc_seqId f) (fc_fileSize f) m)
      as [m1| | ]; cbn [obind] in A |- *; try discriminate.
    rewrite A; cbn [obind]; rewrite IH; auto.
    f_equal; unfold tm_with_entries; cbn [tm_entries tm_open tm_file tm_rid tm_ip tm_config
      tm_status tm_headerWritten].
    rewrite <- app_assoc; reflexivity.
Qed.

Lemma concat_entries es : concat (map entry_bytes es) = log_bytes es.
Proof. unfold log_bytes; rewrite flat_map_concat_map; reflexivity. Qed.

Lemma compaction now now' ts o m es1 es2 r ip :
  (forall q, in_nat63 (now q)) -> (forall q, in_nat63 (now' q)) -> in_nat63 ts ->
  disk_ok o ->
  tm_open m = true -> holds (tm_file m) es1 -> tm_entries m = map entry_bytes es2 ->
  Forall entry_ok (es1 ++ es2) -> Forall block_in_range (es1 ++ es2) -> es1 ++ es2 <> [] ->
  in_nat63 (tm_config m) ->
  parseLog now (own_opts o m) (file_of (log_bytes (es1 ++ es2))) (tm_ip m) = Ret r ->
  pr_status r = OK -> Forall complete (pr_infos r) ->
  zlen (tm_rid m) + zlen (pr_ip r) <= 4103 ->
  exists m' r', compactLog now ts o m = Ret m' /\ tm_entries m' = [] /\
    parseLog now' (own_opts o m) (file_of (lf_data (tm_file m'))) ip = Ret r' /\
    pr_status r' = OK /\ pr_infos r' = pr_infos r /\ pr_ip r' = pr_ip r.
Proof.
  intros Hn Hn' Hts Hd Ho [Hf1 Hf2] Hen Hok Hb Hne Hcf Hr Hst Hcomp Hfit.
  set (es := es1 ++ es2) in *; set (oo := own_opts o m) in *.
  assert (Hpo : po_parseOnly oo = false) by reflexivity.
  pose proof (recover now oo es (tm_ip m) Hpo Hok Hb Hn) as R.
  destruct (run oo (bodies es) OK (p_init (tm_ip m))) as [[[st s]|s]| | ] eqn:Er; try contradiction;
    [|destruct R as [p R]; rewrite R in Hr; injection Hr as <-; discriminate].
  destruct R as (I & _ & R); rewrite Hr in R.
  destruct (Z.eqb_spec st OK) as [->|Hs]; [|injection R as ->; cbn in Hst; contradiction].
  injection R as Er'.
  destruct (i_ok _ _ _ _ I eq_refl) as (seg & Hc & D & Hh).
  destruct Hh as [(He & _)|(Hh & _ & _)]; [contradiction|].
  assert (Hip : pr_ip r <> []) by (rewrite Er'; cbn [pr_ip]; apply (i_hdr _ _ _ _ I), Hh).
  pose proof (describes_faithful _ _ _ D) as Fa.
  assert (Einf : pr_infos r = map (fun e => merged (snd e)) (p_files s)) by (rewrite Er'; reflexivity).
  rewrite <- Einf in Fa.
  assert (Hset : Forall (settled oo) (pr_infos r)).
  { apply Forall_forall; intros f Hf.
    destruct (fa_reported _ _ _ Fa f Hf) as (n & z & p & Inc & [P1 P2] & En & _ & _ & Hw).
    rewrite Forall_forall in Hcomp; destruct (Hcomp f Hf) as (c & Ec & Hc').
    assert (Hwc := Hw c ltac:(rewrite Ec; left; reflexivity)).
    destruct (Hd n (fc_fileSize f) P1) as [D1 D2].
    split; [|split; [rewrite En; exact P1|split; [exact D1|split; [|rewrite En; exact D2]]]].
    - rewrite Ec; f_equal; destruct c as [a b]; cbn [iv_start iv_end] in *; f_equal; lia.
    - destruct (incarnation_In _ _ _ _ _ Inc) as [t Hin]; apply (session_incl _ _ _ Hc) in Hin.
      rewrite Forall_forall in Hok; destruct (Hok _ Hin) as [Hfo _]; cbn [entry_fields_ok] in Hfo; tauto. }
  assert (Htree : pr_infos r <> [] -> po_dirTree oo = false).
  { intros Hnn; destruct (po_dirTree oo) eqn:Et; [exfalso|reflexivity].
    apply Hnn; rewrite Einf, (run_tree oo es OK (p_init (tm_ip m)) OK s Hpo Hok Et eq_refl Er); reflexivity. }
  set (h := LHeader ts 2 (tm_rid m) (pr_ip r) (tm_config m)).
  assert (Hhf : entry_fields_ok h).
  { pose proof (zlen_nonneg (tm_rid m)); pose proof (zlen_nonneg (pr_ip r)).
    cbn; repeat split; try apply Hts; try apply Hcf;
      change (2 ^ 63) with 9223372036854775808; change (2 ^ 31) with 2147483648; lia. }
  assert (Hhl : zlen (entry_bytes h) <= 4129) by (apply entry_fits; [exact Hhf|split; [reflexivity|exact Hfit]]).
  destruct (write_entry h Hhf Hhl) as (dh & Eh & Sh).
  { intros ts' v' rid' ip' c' E; unfold h in E; injection E; auto. }
  cbn [h encode_of] in Eh.
  unfold compactLog; rewrite Ho; cbn [negb].
  set (m2 := tm_with_file (writeEntries m) (lseek (tm_file (writeEntries m)) 0)).
  assert (Em2 : tm_file m2 = file_of (log_bytes es)).
  { unfold m2, writeEntries, tm_with_file, tm_with_entries, lseek, file_of; cbn [tm_file].
    f_equal; rewrite Hen, concat_entries.
    destruct (tm_file m) as [fd fp]; cbn [lf_data lf_pos] in Hf1, Hf2; subst fd fp.
    rewrite fwrite_end; cbn [lf_data]; unfold es; rewrite log_bytes_app; reflexivity. }
  change {| po_prealloc := po_prealloc o; po_dirTree := po_dirTree o; po_parseOnly := false;
            po_rid := tm_rid m2; po_config := tm_config m2; po_disk := po_disk o |} with oo.
  assert (Om2 : tm_open m2 = true) by exact Ho.
  change (tm_ip m) with (tm_ip m2) in Hr.
  unfold parseVerifyAndFix; rewrite Om2; cbn [negb]; rewrite Em2, Hr; cbn [obind].
  rewrite Hst; change (OK =? INVALID_LOG) with false; change (OK =? INCONSISTENT_DIRECTORY) with false.
  cbn [andb]; cbv iota; cbn [obind]; change (OK =? OK) with true; cbn [negb].
  assert (Hall : forallb (fun f => (zlen (fc_chunks f) =? 1)
                      && (getTotalChunkSize (fc_chunks f) =? fc_fileSize f)) (pr_infos r) = true).
  { apply forallb_forall; intros f Hf; rewrite Forall_forall in Hset; destruct (Hset f Hf) as (Ec & _).
    rewrite Ec; cbn [getTotalChunkSize fold_right iv_start iv_end].
    apply andb_true_iff; split; [reflexivity|apply Z.eqb_eq; lia]. }
  rewrite Hall; cbn [negb].
  unfold writeLogHeader at 1; cbn [tm_with_file tm_open tm_rid tm_ip tm_config tm_entries tm_file].
  cbn [negb].
  change (tm_rid m2) with (tm_rid m); change (tm_config m2) with (tm_config m).
  rewrite Eh; cbn [obind fst snd].
  fold h; rewrite Sh.
  destruct (Z.ltb_spec (zlen (entry_bytes h)) 0) as [Hz|_];
    [pose proof (zlen_nonneg (entry_bytes h)); lia|].
  rewrite (compact_adds now oo) by auto; cbn [obind].
  do 2 eexists; split; [reflexivity|].
  unfold writeEntries, tm_with_entries, tm_with_file; cbn [tm_file tm_entries tm_open].
  split; [reflexivity|].
  change (tm_entries m2) with (@nil (list Z)); cbn [app].
  rewrite concat_entries.
  assert (Ez : forall f, lseek (ftruncate f 0) 0 = {| lf_data := []; lf_pos := zlen (@nil Z) |}).
  { intros [fd fp]; unfold lseek, ftruncate; cbn [lf_data lf_pos].
    change (Z.to_nat 0) with 0%nat; cbn [firstn app].
    replace (Z.to_nat (0 - zlen fd)) with 0%nat by (pose proof (zlen_nonneg fd); lia); reflexivity. }
  rewrite Ez, fwrite_end; cbn [app]; rewrite fwrite_end; cbn [lf_data].
  pose proof (recover_compact now now' oo ts (pr_ip r) (pr_infos r) ip Hpo Htree Hn Hn' Hset
                (fa_sorted _ _ _ Fa) Hip (conj Hhf Hhl)) as RC.
  cbv zeta in RC.
  change (po_rid oo) with (tm_rid m) in RC; change (po_config oo) with (tm_config m) in RC; fold h in RC.
  change (log_bytes (h :: compact_entries now (pr_infos r)))
    with (entry_bytes h ++ log_bytes (compact_entries now (pr_infos r))) in RC.
  split; [exact RC|]; auto.
Qed.
