From Verif Require Import Model.LogChecks Spec.LogChecksSpec Proofs.LogSessionFacts Proofs.LogRunFacts.
From Verif Require Import Proofs.LogFacts Proofs.LogCodecFacts Proofs.LogParseFacts Proofs.UriFacts.
From Coq Require Import Lia.
Open Scope Z_scope.

Lemma fit_header ts m : in_nat63 ts -> in_nat63 (tm_config m) -> zlen (tm_rid m) + zlen (tm_ip m) <= 4103 ->
  entry_ok (header_of ts (tm_ip m) m).
Proof.
  intros Ht Hc Hl. pose proof (zlen_nonneg (tm_rid m)). pose proof (zlen_nonneg (tm_ip m)).
  assert (F : entry_fields_ok (header_of ts (tm_ip m) m)).
  { cbn. split; [exact Ht|]. split; [split; vm_compute; [discriminate|reflexivity]|]. split; [exact Hc|].
    change (2 ^ 63) with 9223372036854775808. lia. }
  split; [exact F|]. apply entry_fits; [exact F|]. cbn. auto.
Qed.
Lemma fit_inval ts : in_nat63 ts -> entry_ok (LDirInval ts).
Proof. intros Ht. split; [exact Ht|]. apply entry_fits; [exact Ht|exact I]. Qed.
Lemma bytes_pos e : (0 < length (entry_bytes e))%nat.
Proof.
  unfold entry_bytes, frame. rewrite app_length.
  assert (X : (0 < length (entry_body e))%nat) by (destruct e; cbn [entry_body length]; apply Nat.lt_0_succ).
  apply Nat.lt_lt_add_l. exact X.
Qed.

(** ** The functions, case by case *)
Lemma inval_closed w ts m : tm_open m = false -> invalidateDirectoryW w ts m = Ret (Goes m).
Proof. intros O. unfold invalidateDirectoryW, invalidateDirectory, goes. rewrite O. destruct w; reflexivity. Qed.
Lemma inval_ok ts m : in_nat63 ts -> tm_open m = true -> exists m', invalidateDirectoryW None ts m = Ret (Goes m') /\
  tm_status m' = INCONSISTENT_DIRECTORY /\ tm_open m' = true /\ tm_rid m' = tm_rid m /\ tm_ip m' = tm_ip m /\ tm_config m' = tm_config m /\
  (forall es, holds (tm_file m) es -> holds (tm_file m') (es ++ [LDirInval ts])).
Proof.
  intros Ht O. unfold invalidateDirectoryW, goes.
  destruct (add_dir_inval ts m [] Ht O) as [m' [E [_ [O' [_ [_ [R [I C]]]]]]]].
  exists m'. rewrite E. cbn [obind]. split; [reflexivity|].
  assert (HH : forall es, holds (tm_file m) es -> holds (tm_file m') (es ++ [LDirInval ts])).
  { intros es HO. destruct (add_dir_inval ts m es Ht O) as [m2 [E2 [H2 _]]]. rewrite E in E2. injection E2 as <-. apply H2, HO. }
  split; [|auto 8].
  unfold invalidateDirectory in E. rewrite O in E. cbn [negb] in E. destruct (encodeDirectoryInvalidationEntry _ _ _); try discriminate.
    cbn [obind] in E. injection E as <-. reflexivity.
Qed.
Lemma inval_fails k ts m : in_nat63 ts -> tm_open m = true -> exists d, invalidateDirectoryW (Some k) ts m = Ret (Stops d) /\
  (forall es, holds (tm_file m) es -> torn_off d es).
Proof.
  intros Ht O. unfold invalidateDirectoryW. rewrite O.
  destruct (write_entry (LDirInval ts)) as (d & E & Es);
    [exact Ht|apply entry_fits; auto; exact Ht|intros; discriminate|].
  cbn [encode_of] in E. rewrite E. cbn [obind fst snd]. rewrite Es. eexists. split; [reflexivity|].
  intros es [H1 H2]. exists (LDirInval ts), (Nat.min k (length (entry_bytes (LDirInval ts)) - 1)).
  split; [apply fit_inval, Ht|]. pose proof (bytes_pos (LDirInval ts)). split; [lia|].
  unfold closed_after, tm_closed, tm_with_file. cbn [tm_file]. destruct (tm_file m) as [fd fp]. cbn [lf_data lf_pos] in H1, H2. subst fd fp.
  rewrite fwrite_end. reflexivity.
Qed.
Lemma header_closed w ts m : tm_open m = false -> writeLogHeaderW w ts m = Ret m.
Proof. intros O. unfold writeLogHeaderW, writeLogHeader. rewrite O. destruct w; reflexivity. Qed.
Lemma header_ok ts m : in_nat63 ts -> in_nat63 (tm_config m) -> zlen (tm_rid m) + zlen (tm_ip m) <= 4103 -> tm_open m = true ->
  exists m', writeLogHeaderW None ts m = Ret m' /\ tm_status m' = OK /\ tm_open m' = true /\
  (forall es, holds (tm_file m) es -> holds (tm_file m') (es ++ [header_of ts (tm_ip m) m])).
Proof.
  intros Ht Hc Hl O. unfold writeLogHeaderW.
  destruct (add_header ts m [] Ht Hc Hl O) as [m' [E [_ [S' [O' _]]]]]. exists m'. split; [exact E|]. split; [exact S'|]. split; [exact O'|].
  intros es H. destruct (add_header ts m es Ht Hc Hl O) as [m2 [E2 [H2 _]]]. rewrite E in E2. injection E2 as <-. auto.
Qed.
Lemma header_fails k ts m : in_nat63 ts -> in_nat63 (tm_config m) -> zlen (tm_rid m) + zlen (tm_ip m) <= 4103 -> tm_open m = true ->
  exists m', writeLogHeaderW (Some k) ts m = Ret m' /\ tm_status m' = tm_status m /\ tm_open m' = false /\
  (forall es, holds (tm_file m) es -> torn_off (lf_data (tm_file m')) es).
Proof.
  intros Ht Hc Hl O. unfold writeLogHeaderW. rewrite O.
  pose proof (fit_header ts m Ht Hc Hl) as [F G].
  destruct (write_entry (header_of ts (tm_ip m) m) F G) as (d & E & Es).
  { intros ? ? ? ? ? [= _ <- _ _ _]. reflexivity. }
  cbn [encode_of header_of] in E. rewrite E. cbn [obind fst snd].
  match goal with |- context [?x <? 0] => destruct (Z.ltb_spec x 0) as [L|L]; [exfalso; revert L; apply Z.le_ngt, zlen_nonneg|] end.
  rewrite Es. eexists. split; [reflexivity|]. split; [reflexivity|]. split; [reflexivity|].
  intros es [H1 H2]. exists (header_of ts (tm_ip m) m), (Nat.min k (length (entry_bytes (header_of ts (tm_ip m) m)) - 1)).
  split; [split; assumption|]. pose proof (bytes_pos (header_of ts (tm_ip m) m)). split; [lia|].
  unfold closed_after, tm_closed, tm_with_file. cbn [tm_file]. destruct (tm_file m) as [fd fp]. cbn [lf_data lf_pos] in H1, H2. subst fd fp.
  rewrite fwrite_end. reflexivity.
Qed.

(** ** States on the way *)
(** What the file holds at any time: [es], entries written alone, and if it was closed part
    of one. *)
Definition keeps (es : list log_entry) (m : tlm) : Prop :=
  exists extra, Forall alone extra /\ Forall entry_ok extra /\
    (if tm_open m then holds (tm_file m) (es ++ extra) else torn_off (lf_data (tm_file m)) (es ++ extra)).
Definition keeps_d (es : list log_entry) (d : list Z) : Prop :=
  exists extra, Forall alone extra /\ Forall entry_ok extra /\ torn_off d (es ++ extra).
Lemma torn_whole es : torn_off (log_bytes es) es.
Proof.
  exists (LDirInval 0), 0%nat. split; [apply fit_inval; split; vm_compute; congruence|]. split; [apply bytes_pos|].
  cbn [firstn]. now rewrite app_nil_r.
Qed.
Lemma keeps_close es m : keeps es m -> keeps_d es (lf_data (tm_file m)).
Proof.
  intros [x [A [B C]]]. exists x. split; [exact A|]. split; [exact B|]. destruct (tm_open m); [|exact C].
  destruct C as [-> _]. apply torn_whole.
Qed.
Lemma keeps_one es m m' e : keeps es m -> tm_open m = true -> tm_open m' = true -> alone e -> entry_ok e ->
  (forall es, holds (tm_file m) es -> holds (tm_file m') (es ++ [e])) -> keeps es m'.
Proof.
  intros [x [A [B C]]] O O' Ae Oe H. rewrite O in C. exists (x ++ [e]). rewrite O'. split; [apply Forall_app; auto|].
  split; [apply Forall_app; auto|]. rewrite app_assoc. apply H, C.
Qed.
Lemma keeps_torn es m d : keeps es m -> tm_open m = true -> (forall es, holds (tm_file m) es -> torn_off d es) -> keeps_d es d.
Proof. intros [x [A [B C]]] O H. rewrite O in C. exists x. auto. Qed.

Definition spec_ok (ts : Z) (m : tlm) : Prop := in_nat63 ts /\ in_nat63 (tm_config m) /\ zlen (tm_rid m) + zlen (tm_ip m) <= 4103.
Definition result {A} (x : outcome (checked A)) (P : A -> Prop) (Q : list Z -> Prop) : Prop :=
  match x with Ret (Goes a) => P a | Ret (Stops d) => Q d | _ => False end.
Lemma result_bind {A B} (x : outcome (checked A)) (f : A -> outcome (checked B)) (P : A -> Prop) P' Q :
  result x P Q -> (forall a, P a -> result (f a) P' Q) -> result (cbind x f) P' Q.
Proof. intros R F. destruct x as [[a|d]| |]; cbn [result cbind obind] in *; [exact (F a R)|exact R|contradiction|contradiction]. Qed.

Lemma ip_step c w ts m : fit ts (sc_peer c) m -> tm_open m = true ->
  result (verifySenderIpW w ts (sc_disabled c) (sc_peer c) m)
    (fun m1 => ~ (other_sender c m /\ fails w) /\ tm_open m1 = true /\ spec_ok ts m1 /\
       (tm_status m1 = INCONSISTENT_DIRECTORY <-> tm_status m = INCONSISTENT_DIRECTORY \/ other_sender c m) /\
       (forall es, keeps es m -> keeps es m1))
    (fun d => (other_sender c m /\ fails w) /\ (forall es, keeps es m -> keeps_d es d)).
Proof.
  intros [Ht [Hc [Hp Hi]]] O.
  assert (SAME : sc_disabled c || (zlen (tm_ip m) =? 0) || str_eqb (tm_ip m) (sc_peer c) = true <-> ~ other_sender c m).
  { unfold other_sender. rewrite !orb_true_iff, Z.eqb_eq, UriFacts.str_eqb_eq.
    destruct (sc_disabled c); [split; [intros _ [X _]; discriminate|auto]|].
    destruct (tm_ip m) as [|a l]; [split; [intros _ [_ [X _]]; congruence|auto]|].
    split.
    - intros [[X|X]|X] [_ [_ Y]]; [discriminate|discriminate|congruence].
    - intros X. right. destruct (list_eq_dec Z.eq_dec (a :: l) (sc_peer c)); [assumption|]. exfalso. apply X. split; [auto|]. split; [discriminate|assumption]. }
  destruct (sc_disabled c || (zlen (tm_ip m) =? 0) || str_eqb (tm_ip m) (sc_peer c)) eqn:E.
  - assert (N : ~ other_sender c m) by (apply SAME; reflexivity).
    assert (V : verifySenderIpW w ts (sc_disabled c) (sc_peer c) m = goes (obind (verifySenderIp ts (sc_disabled c) (sc_peer c) m) (fun r => Ret (snd r)))).
    { unfold verifySenderIpW. rewrite O. cbn [negb orb]. rewrite E. destruct w; reflexivity. }
    rewrite V. unfold verifySenderIp. rewrite O. cbn [negb]. rewrite E. cbn -[INCONSISTENT_DIRECTORY].
    split; [tauto|]. split; [first [exact O|reflexivity]|]. split; [split; [|split]; auto|]. split; [tauto|]. intros es [x X]. exists x. rewrite O in X. cbn [tm_open tm_file]. exact X.
  - assert (N : other_sender c m).
    { destruct SAME as [_ X]. assert (Y : ~ ~ other_sender c m) by (intros Y; discriminate (X Y)).
      unfold other_sender in *. destruct (sc_disabled c); [exfalso; apply Y; intros [Z _]; discriminate|].
      destruct (list_eq_dec Z.eq_dec (tm_ip m) []); [exfalso; apply Y; tauto|].
      destruct (list_eq_dec Z.eq_dec (tm_ip m) (sc_peer c)); [exfalso; apply Y; tauto|]. auto. }
    destruct w as [k|].
    + unfold verifySenderIpW. rewrite O. cbn [negb orb]. rewrite E.
      destruct (inval_fails k ts m Ht O) as [d [-> T]]. cbn [result]. split; [split; [exact N|discriminate]|].
      intros es K. eapply keeps_torn; eauto.
    + unfold verifySenderIpW, verifySenderIp. rewrite O. cbn [negb]. rewrite E.
      destruct (inval_ok ts m Ht O) as [m' [E' [S' [O' [R [I [C H]]]]]]].
      unfold invalidateDirectoryW, goes in E'. destruct (invalidateDirectory ts m) as [m2| |]; try discriminate. cbn [obind] in E'. injection E' as ->.
      cbn -[INCONSISTENT_DIRECTORY]. split; [intros [_ X]; apply X; reflexivity|]. split; [first [exact O'|reflexivity]|].
      split; [split; [exact Ht|split; cbn; [rewrite C; exact Hc|rewrite R; exact Hp]]|]. split; [tauto|].
      intros es K. destruct (keeps_one es m m' (LDirInval ts) K O O' Logic.I (fit_inval ts Ht) H) as [x X]. exists x. rewrite O' in X. cbn [tm_open tm_file]. rewrite ?O'. exact X.
Qed.

Lemma header_step c wi wh ts m block resuming : spec_ok ts m -> tm_open m = true -> sc_header c = Some (block, resuming) ->
  result (addTransferLogHeaderW wi wh ts (sc_dirTree c) block resuming m)
    (fun m2 => ~ (must_invalidate c /\ fails wi) /\
       (tm_open m2 = true -> spec_ok ts m2) /\
       (tm_status m2 = INCONSISTENT_DIRECTORY <->
          (tm_status m = INCONSISTENT_DIRECTORY \/ must_invalidate c) /\ (sc_dirTree c = true \/ fails wh)) /\
       (forall es, keeps es m -> keeps es m2))
    (fun d => (must_invalidate c /\ fails wi) /\ (forall es, keeps es m -> keeps_d es d)).
Proof.
  intros [Ht [Hc Hl]] O HD.
  assert (MU : negb resuming || (sc_dirTree c && block) = true <-> must_invalidate c).
  { unfold must_invalidate. rewrite orb_true_iff, negb_true_iff, andb_true_iff. split.
    - intros X. exists block, resuming. auto.
    - intros [b [r [X Y]]]. rewrite HD in X. injection X as <- <-. exact Y. }
  (* after the first part *)
  assert (P1 : result (if negb resuming || (sc_dirTree c && block) then invalidateDirectoryW wi ts m else Ret (Goes m))
    (fun m1 => ~ (must_invalidate c /\ fails wi) /\ tm_open m1 = true /\ spec_ok ts m1 /\
       (tm_status m1 = INCONSISTENT_DIRECTORY <-> tm_status m = INCONSISTENT_DIRECTORY \/ must_invalidate c) /\
       (forall es, keeps es m -> keeps es m1))
    (fun d => (must_invalidate c /\ fails wi) /\ (forall es, keeps es m -> keeps_d es d))).
  { destruct (negb resuming || (sc_dirTree c && block)) eqn:E.
    - assert (M : must_invalidate c) by (apply MU; reflexivity). destruct wi as [k|].
      + destruct (inval_fails k ts m Ht O) as [d [-> T]]. split; [split; [exact M|discriminate]|].
        intros es K. eapply keeps_torn; eauto.
      + destruct (inval_ok ts m Ht O) as [m' [-> [S' [O' [R [I [C H]]]]]]]. cbn [result].
        split; [intros [_ X]; apply X; reflexivity|]. split; [exact O'|].
        split; [split; [exact Ht|split; [rewrite C; exact Hc|rewrite R, I; exact Hl]]|]. split; [tauto|].
        intros es K. exact (keeps_one es m m' (LDirInval ts) K O O' Logic.I (fit_inval ts Ht) H).
    - assert (M : ~ must_invalidate c) by (intros X; apply MU in X; discriminate).
      cbn [result]. split; [tauto|]. split; [exact O|]. split; [split; auto|]. split; [tauto|]. auto. }
  unfold addTransferLogHeaderW. refine (result_bind _ _ _ _ _ P1 _).
  intros m1 [A [O1 [[Ht1 [Hc1 Hl1]] [ST K]]]].
  destruct (negb (sc_dirTree c) || negb (tm_status m1 =? INCONSISTENT_DIRECTORY)) eqn:E.
  - destruct wh as [k|].
    + destruct (header_fails k ts m1 Ht1 Hc1 Hl1 O1) as [m' [E' [S' [O' H]]]]. rewrite E'. cbn [goes obind result].
      split; [exact A|]. split; [congruence|]. split.
      * rewrite S', ST. split; [intros X; split; [exact X|right; discriminate]|tauto].
      * intros es X. destruct (K es X) as [x [X1 [X2 X3]]]. rewrite O1 in X3. exists x. rewrite O'. auto.
    + destruct (header_ok ts m1 Ht1 Hc1 Hl1 O1) as [m' [E' [S' [O' H]]]]. rewrite E'. cbn [goes obind result].
      split; [exact A|]. split.
      { intros _. unfold writeLogHeaderW in E'. destruct (add_header ts m1 [] Ht1 Hc1 Hl1 O1) as [m2 [E2 [_ [_ [_ [_ [_ [R [I C]]]]]]]]].
        rewrite E' in E2. injection E2 as <-. split; [exact Ht1|]. rewrite C, R, I. auto. }
      split.
      * rewrite S'. split; [discriminate|]. intros [X [Y|Y]]; [|exfalso; apply Y; reflexivity].
        apply ST in X. rewrite Y in E. rewrite X in E. discriminate.
      * intros es X. exact (keeps_one es m1 m' (header_of ts (tm_ip m1) m1) (K es X) O1 O' Logic.I (fit_header ts m1 Ht1 Hc1 Hl1) H).
  - apply orb_false_iff in E. destruct E as [E1 E2]. apply negb_false_iff in E1, E2. apply Z.eqb_eq in E2.
    cbn [result]. split; [exact A|]. split; [intros _; split; auto|]. split; [|exact K].
    split; [intros X; split; [apply ST, X|left; exact E1]|intros _; exact E2].
Qed.
Lemma last_step c w ts m : (tm_open m = true -> spec_ok ts m) ->
  result (fixAndCloseW w ts (sc_dirTree c) (sc_success c) m)
    (fun d => ~ (sc_success c = true /\ sc_dirTree c = false /\ tm_status m = INCONSISTENT_DIRECTORY) /\ (forall es, keeps es m -> keeps_d es d))
    (fun d => (sc_success c = true /\ sc_dirTree c = false /\ tm_status m = INCONSISTENT_DIRECTORY) /\ (forall es, keeps es m -> keeps_d es d)).
Proof.
  intros SP. unfold fixAndCloseW. destruct (sc_success c && (tm_status m =? INCONSISTENT_DIRECTORY)) eqn:E.
  - apply andb_true_iff in E. destruct E as [E1 E2]. apply Z.eqb_eq in E2. destruct (sc_dirTree c) eqn:D.
    + destruct (tm_open m) eqn:O.
      * destruct (SP eq_refl) as [Ht [Hc Hl]]. destruct w as [k|].
        -- destruct (header_fails k ts m Ht Hc Hl O) as [m' [-> [_ [_ H]]]]. cbn [goes obind result]. split; [intros [_ [X _]]; discriminate|].
           intros es K. eapply keeps_torn; eauto.
        -- destruct (header_ok ts m Ht Hc Hl O) as [m' [-> [_ [O' H]]]]. cbn [goes obind result]. split; [intros [_ [X _]]; discriminate|].
           intros es K. apply keeps_close. exact (keeps_one es m m' (header_of ts (tm_ip m) m) K O O' Logic.I (fit_header ts m Ht Hc Hl) H).
      * rewrite header_closed by exact O. cbn [goes obind result]. split; [intros [_ [X _]]; discriminate|]. intros es. apply keeps_close.
    + cbn [result]. split; [auto|]. intros es. apply keeps_close.
  - cbn [result]. split; [|intros es; apply keeps_close].
    intros [X [_ Y]]. rewrite X, Y in E. discriminate.
Qed.

Lemma session_result c w ts m : fit ts (sc_peer c) m -> tm_open m = true ->
  result (checks_session c w ts m)
    (fun d => ~ stop_case c w m /\ (forall es, keeps es m -> keeps_d es d))
    (fun d => stop_case c w m /\ (forall es, keeps es m -> keeps_d es d)).
Proof.
  intros F O. pose proof (ip_step c (wr_ip w) ts m F O) as R1. unfold checks_session.
  destruct (verifySenderIpW _ _ _ _ _) as [[m1|d]| |]; cbn [result cbind obind] in *; try contradiction.
  2:{ destruct R1 as [R1 K]. split; [left; exact R1|exact K]. }
  destruct R1 as [A1 [O1 [S1 [T1 K1]]]].
  assert (R2 : result (match sc_header c with
         | Some (block, resuming) => addTransferLogHeaderW (wr_inval w) (wr_header w) ts (sc_dirTree c) block resuming m1
         | None => Ret (Goes m1) end)
    (fun m2 => ~ (must_invalidate c /\ fails (wr_inval w)) /\ (tm_open m2 = true -> spec_ok ts m2) /\
       (sc_dirTree c = false -> (tm_status m2 = INCONSISTENT_DIRECTORY <-> left_inconsistent c w m)) /\ (forall es, keeps es m -> keeps es m2))
    (fun d => (must_invalidate c /\ fails (wr_inval w)) /\ (forall es, keeps es m -> keeps_d es d))).
  { destruct (sc_header c) as [[block resuming]|] eqn:HD.
    - pose proof (header_step c (wr_inval w) (wr_header w) ts m1 block resuming S1 O1 HD) as R2.
      destruct (addTransferLogHeaderW _ _ _ _ _ _ _) as [[m2|d]| |]; cbn [result] in *; try contradiction.
      + destruct R2 as [A2 [S2 [T2 K2]]]. split; [exact A2|]. split; [exact S2|]. split; [|auto].
        intros D. rewrite T2, T1, D. unfold left_inconsistent. rewrite HD. split.
        * intros [X [Y|Y]]; [discriminate|]. split; [tauto|auto].
        * intros [X [Y|Y]]; [discriminate|]. split; [tauto|auto].
      + destruct R2 as [A2 K2]. split; [exact A2|auto].
    - cbn [result]. split; [intros [[b [r [X _]]] _]; congruence|]. split; [auto|]. split; [|exact K1].
      intros _. rewrite T1. unfold left_inconsistent. split.
      + intros X. split; [tauto|auto].
      + intros [[X|[X|[b [r [X _]]]]] _]; auto. congruence. }
  destruct (match sc_header c with Some _ => _ | None => _ end) as [[m2|d]| |]; cbn [result cbind obind] in *; try contradiction.
  2:{ destruct R2 as [A2 K2]. split; [right; left; exact A2|exact K2]. }
  destruct R2 as [A2 [S2 [T2 K2]]].
  pose proof (last_step c (wr_last w) ts m2 S2) as R3.
  destruct (fixAndCloseW _ _ _ _ _) as [[d|d]| |]; cbn [result] in *; try contradiction.
  - destruct R3 as [A3 K3]. split; [|auto]. intros [X|[X|[X [Y Z]]]]; [tauto|tauto|]. apply A3. split; [exact X|]. split; [exact Y|]. apply T2; auto.
  - destruct R3 as [[X [Y Z]] K3]. split; [|auto]. right; right. split; [exact X|]. split; [exact Y|]. apply T2; auto.
Qed.

Lemma stops_exactly c w ts m : fit ts (sc_peer c) m -> tm_open m = true ->
  exists x, checks_session c w ts m = Ret x /\ ((exists d, x = Stops d) <-> stop_case c w m).
Proof.
  intros F O. pose proof (session_result c w ts m F O) as R. unfold result in R.
  destruct (checks_session c w ts m) as [[d|d]| |]; try contradiction; eexists; (split; [reflexivity|]); destruct R as [R _].
  - split; [intros [d' X]; discriminate|tauto].
  - split; [auto|eauto].
Qed.

(** ** What is left can be recovered from *)
Lemma whole_prefix_app bs b k : (k < length (frame b))%nat ->
  whole_prefix (bs ++ [b]) (length (flat_map frame bs) + k) = bs.
Proof.
  intros L. induction bs as [|a bs IH]; cbn [app flat_map whole_prefix].
  - cbn [length Nat.add]. destruct (Nat.leb_spec (length (frame b)) k); [lia|reflexivity].
  - rewrite app_length. destruct (Nat.leb_spec (length (frame a)) (length (frame a) + length (flat_map frame bs) + k)); [|lia].
    f_equal. replace (length (frame a) + length (flat_map frame bs) + k - length (frame a))%nat with (length (flat_map frame bs) + k)%nat by lia. exact IH.
Qed.
Lemma log_bytes_bodies es : log_bytes es = flat_map frame (map entry_body es).
Proof. induction es as [|e es IH]; cbn; [reflexivity|]. unfold log_bytes in IH. rewrite IH. reflexivity. Qed.
Lemma ok_body e : entry_ok e -> body_ok (entry_body e).
Proof.
  intros [_ L]. unfold entry_bytes, frame in L. rewrite zlen_app in L. pose proof (zlen_nonneg (le_bytes 2 (zlen (entry_body e)))).
  split; [|lia]. destruct e; cbn [entry_body]; rewrite zlen_cons; match goal with |- context [zlen ?l] => pose proof (zlen_nonneg l) end; lia.
Qed.
Lemma torn_recovers now o d es ip : Forall entry_ok es -> torn_off d es -> po_parseOnly o = false ->
  same_recovery (parseLog now o (file_of d) ip) (parseLog now o (file_of (log_bytes es)) ip).
Proof.
  intros F [e [k [OKe [L ->]]]] P.
  pose proof (torn_tail now o (map entry_body es ++ [entry_body e]) (length (flat_map frame (map entry_body es)) + k) ip) as T.
  assert (B : Forall body_ok (map entry_body es ++ [entry_body e])).
  { apply Forall_app. split; [|constructor; [apply ok_body, OKe|constructor]]. rewrite Forall_map. eapply Forall_impl; [|exact F]. intros a. apply ok_body. }
  unfold frames in T. specialize (T B). rewrite flat_map_app, app_length in T. cbn [flat_map] in T. rewrite app_nil_r in T.
  unfold entry_bytes in L.
  assert (LE : (length (flat_map frame (map entry_body es)) + k <= length (flat_map frame (map entry_body es)) + length (frame (entry_body e)))%nat) by lia.
  specialize (T LE P). cbv zeta in T. destruct T as [T _].
  rewrite whole_prefix_app in T by exact L. rewrite <- log_bytes_bodies in T.
  rewrite firstn_app_2 in T. exact T.
Qed.
Lemma left_all_right now o ip c w ts m es d : fit ts (sc_peer c) m -> tm_open m = true -> holds (tm_file m) es -> Forall entry_ok es ->
  checks_session c w ts m = Ret (Stops d) \/ checks_session c w ts m = Ret (Goes d) -> po_parseOnly o = false ->
  exists extra, Forall alone extra /\
    same_recovery (parseLog now o (file_of d) ip) (parseLog now o (file_of (log_bytes (es ++ extra))) ip).
Proof.
  intros F O H OKs E P. pose proof (session_result c w ts m F O) as R. unfold result in R.
  assert (K : keeps es m).
  { exists []. split; [constructor|]. split; [constructor|]. rewrite O, app_nil_r. exact H. }
  assert (X : keeps_d es d) by (destruct E as [E|E]; rewrite E in R; apply R, K).
  destruct X as [x [X1 [X2 X3]]]. exists x. split; [exact X1|]. apply torn_recovers; auto. apply Forall_app. auto.
Qed.

(** ** Nothing is logged after a header that could not be written *)
Lemma closed_ignores k ts m a : in_nat63 ts -> in_nat63 (tm_config m) -> zlen (tm_rid m) + zlen (tm_ip m) <= 4103 -> tm_open m = true ->
  exists m', writeLogHeaderW (Some k) ts m = Ret m' /\ do_add a m' = Ret m' /\ tm_status m' = tm_status m.
Proof.
  intros Ht Hc Hl O. destruct (header_fails k ts m Ht Hc Hl O) as [m' [E [S' [O' _]]]]. exists m'. split; [exact E|]. split; [|exact S'].
  destruct a; cbn [do_add]; unfold addFileCreationEntry, addBlockWriteEntry, addFileResizeEntry, addFileInvalidationEntry; rewrite O'; reflexivity.
Qed.

(** ** Cases *)
Definition no_fail : lswrites := {| wr_ip := None; wr_inval := None; wr_header := None; wr_last := None |}.
Definition log_case (h : option (bool * bool)) : lscase :=
  {| sc_dirTree := false; sc_disabled := false; sc_peer := ex_peer; sc_header := h; sc_success := true |}.
Lemma empty_stops : exists m d, ex_recover [ex_other] = Ret (INCONSISTENT_DIRECTORY, [], m) /\
  checks_session (log_case None) no_fail 7 m = Ret (Stops d).
Proof. eexists. eexists. split; [vm_compute; reflexivity|]. vm_compute. reflexivity. Qed.
Lemma header_stops : exists m d, ex_recover [] = Ret (OK, [], m) /\
  checks_session (log_case (Some (true, false))) {| wr_ip := None; wr_inval := None; wr_header := Some 0%nat; wr_last := None |} 7 m = Ret (Stops d).
Proof. eexists. eexists. split; [vm_compute; reflexivity|]. vm_compute. reflexivity. Qed.
Lemma inval_stops : exists m d, ex_recover [] = Ret (OK, [], m) /\
  checks_session (log_case (Some (true, false))) {| wr_ip := None; wr_inval := Some 2%nat; wr_header := None; wr_last := None |} 7 m = Ret (Stops d) /\
  length d = 2%nat.
Proof. eexists. eexists. split; [vm_compute; reflexivity|]. split; vm_compute; reflexivity. Qed.
