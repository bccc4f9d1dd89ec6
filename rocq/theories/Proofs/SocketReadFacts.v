(** Reading the encrypted stream (Model/Socket.v). *)
From Verif Require Export Proofs.SocketFacts.
From Verif Require Import Proofs.BytesFacts.

Definition rel (r : rsock) (s : pst) : Prop :=
  r_dec r = {| cr_iv := x_iv s; cr_c := x_c s |} /\ r_total r = x_pos s /\ 0 <= x_pos s.
Definition live (e : Z) : Prop := e = OK \/ e = WDT_TIMEOUT.

Lemma readInternal_ok r n full off :
  0 < n ->
  exists x r' T1, readInternal r n full = (x, r') /\
    r_dec r' = r_dec r /\ r_total r' = r_total r /\ r_tags r' = r_tags r /\ r_starts r' = r_starts r /\
    net_bytes (r_in r) = x ++ net_bytes (r_in r') /\ zlen x <= n /\
    timeouts off (r_in r) = T1 ++ timeouts (off + zlen x) (r_in r') /\
    (forall t, In t T1 -> t = off + zlen x /\ zlen x < n) /\
    (T1 = [] -> full = true \/ x = [] -> zlen x < n -> net_bytes (r_in r') = []) /\
    (x <> [] -> r_err r' = OK) /\
    (x = [] -> (r_err r' = WDT_TIMEOUT /\ T1 = [off]) \/ (r_err r' = SOCKET_READ_ERROR /\ T1 = [])).
Proof.
  intros N. unfold readInternal. destruct (io_read (r_in r) n full) as [[x t] l'] eqn:E.
  destruct (io_read_ok _ _ _ _ _ _ off N E) as (A & B & C & D & F).
  exists x. eexists. exists (if t then [off + zlen x] else []). split; [reflexivity|].
  cbn [r_set r_dec r_total r_tags r_starts r_in r_err]. repeat (split; [solve [reflexivity|assumption]|]).
  split. { intros u U. destruct t; [|destruct U]. destruct U as [<-|[]]. auto. }
  split. { intros T. destruct t; [discriminate|]. apply D. reflexivity. }
  split. { destruct x; [congruence|reflexivity]. }
  intros ->. destruct t; [left|right]; split; try reflexivity. rewrite zlen_nil, Z.add_0_r. reflexivity.
Qed.

Lemma rad_ok K r s n full off :
  0 < n -> rel r s ->
  exists x r' T1, readAndDecrypt K r n full = Ret (xor_from K (x_iv s) (zlen (x_c s)) x, r') /\
    rel r' (adv s x) /\ r_tags r' = r_tags r /\ r_starts r' = r_starts r /\
    net_bytes (r_in r) = x ++ net_bytes (r_in r') /\ zlen x <= n /\
    timeouts off (r_in r) = T1 ++ timeouts (off + zlen x) (r_in r') /\
    (forall t, In t T1 -> t = off + zlen x) /\
    (T1 = [] -> full = true \/ x = [] -> zlen x < n -> net_bytes (r_in r') = []) /\
    (x <> [] -> r_err r' = OK) /\
    (x = [] -> (r_err r' = WDT_TIMEOUT /\ T1 = [off]) \/ (r_err r' = SOCKET_READ_ERROR /\ T1 = [])).
Proof.
  intros N (R1 & R2 & R3). unfold readAndDecrypt. rewrite (proj2 (Z.leb_gt _ _)) by lia.
  destruct (readInternal_ok r n full off N) as (x & r1 & T1 & -> & A1 & A2 & A3 & A4 & A5 & A6 & A7 & A8 & A9 & B1 & B2).
  destruct x as [|c x].
  - exists [], r1, T1. split; [reflexivity|]. rewrite adv_nil. split; [repeat split; congruence|].
    repeat (split; [solve [assumption]|]). split; [intros t Ht; apply A8; exact Ht|]. auto.
  - set (X := c :: x) in *. exists X. eexists. exists T1. unfold decrypt. rewrite A1, R1. cbn [cr_iv cr_c]. split; [reflexivity|].
    cbn [r_crypt r_dec r_total r_tags r_starts r_in r_err]. split.
    { unfold rel. cbn [r_dec r_total adv x_iv x_c x_pos]. pose proof (zlen_nonneg X). repeat split; [change (r_total r1 + zlen X = x_pos s + zlen X)|]; lia. }
    repeat (split; [solve [assumption]|]). split; [intros t Ht; apply A8; exact Ht|]. auto.
Qed.

(** ** What [taken] says *)
Lemma taken_app rep K o s1 w1 p1 s2 : taken rep K o s1 w1 p1 s2 -> forall w2 p2 s3,
  taken rep K o s2 w2 p2 s3 -> taken rep K o s1 (w1 ++ w2) (p1 ++ p2) s3.
Proof.
  induction 1; intros w2 p2 s3 T; cbn [app]; [exact T|constructor; auto| |]; rewrite <- ?app_assoc.
  - apply tk_tag; auto.
  - apply tk_iv; auto.
Qed.
Lemma taken_weak K o a w p b rep : taken false K o a w p b -> taken rep K o a w p b.
Proof.
  induction 1; [constructor|constructor; auto|apply tk_tag|apply tk_iv]; auto; destruct H0; try discriminate; auto.
Qed.
(** A run of bytes without a tag inside. *)
Lemma taken_run rep K o : forall x s f,
  0 <= x_pos s -> (due (so_k o) s = false \/ f = true) ->
  (so_k o <= 0 \/ x_pos s mod so_k o + zlen x <= so_k o) ->
  taken rep K o (s, f) x (xor_from K (x_iv s) (zlen (x_c s)) x) (adv s x, match x with [] => f | _ => false end).
Proof.
  induction x as [|b x IH]; intros s f P D H.
  - rewrite adv_nil. constructor.
  - cbn [xor_from]. apply tk_byte; [exact D|]. rewrite byte_next_adv.
    assert (A : adv s (b :: x) = adv (adv s [b]) x) by (rewrite adv_adv; reflexivity). rewrite A. pose proof (zlen_nonneg x).
    destruct x as [|c x].
    { rewrite adv_nil. constructor. }
    replace (zlen (x_c s) + 1) with (zlen (x_c (adv s [b]))) by (cbn [adv x_c]; rewrite zlen_app; reflexivity).
    change (x_iv s) with (x_iv (adv s [b])). apply (IH (adv s [b]) false).
    + cbn [adv x_pos]. pose proof (zlen_nonneg [b]). lia.
    + left. apply not_due_adv; [exact P|reflexivity|]. destruct H as [H|H]; [left; exact H|right].
      rewrite zlen_cons in *. rewrite zlen_cons in H. pose proof (zlen_nonneg x). rewrite zlen_nil. lia.
    + destruct H as [H|H]; [left; exact H|]. destruct (Z_le_gt_dec (so_k o) 0); [left; lia|right].
      cbn [adv x_pos]. rewrite !zlen_cons, zlen_nil in *. pose proof (zlen_nonneg x). rewrite mod_adv by lia. lia.
Qed.

(** ** A tag *)
Definition with_iv (o : sopts) (s : pst) (iv : list Z) : pst :=
  if change o s then {| x_pos := x_pos s; x_iv := iv; x_c := []; x_ivs := tl (x_ivs s) |} else s.
Lemma tag_ok_spec K e tag : tag_ok K e tag = true <-> tag = tagf K (cr_iv e) (cr_c e).
Proof. unfold tag_ok. destruct (list_eq_dec Z.eq_dec tag _); split; congruence. Qed.
Definition taglen (o : sopts) (s : pst) : Z := 16 + if change o s then 16 else 0.
Lemma read_tag_ok K o r s off :
  rel r s ->
  exists ok r', read_tag K o r = (ok, r') /\
    if ok
    then exists iv, (zlen iv = if change o s then 16 else 0) /\
           net_bytes (r_in r) = tagf K (x_iv s) (x_c s) ++ iv ++ net_bytes (r_in r') /\
           rel r' (with_iv o s iv) /\ zlen (tagf K (x_iv s) (x_c s)) = 16 /\
           timeouts off (r_in r) = timeouts (off + taglen o s) (r_in r') /\
           r_tags r' = r_tags r + 1 /\ r_starts r' = r_starts r ++ if change o s then [x_pos s] else []
    else r_err r' = ENCRYPTION_ERROR /\
         exists extra T1, net_bytes (r_in r) = extra ++ net_bytes (r_in r') /\
           timeouts off (r_in r) = T1 ++ timeouts (off + zlen extra) (r_in r') /\
           ((exists t, In t T1 /\ off <= t < off + taglen o s) \/
            zlen (net_bytes (r_in r)) < taglen o s \/
            firstn 16 (net_bytes (r_in r)) <> tagf K (x_iv s) (x_c s)).
Proof.
  intros (R1 & R2 & R3). unfold read_tag, readEncryptionTag.
  destruct (readInternal_ok r 16 true off ltac:(lia)) as (x & r1 & T1 & -> & A1 & A2 & A3 & A4 & A5 & A6 & A7 & A8 & A9 & B1 & B2).
  pose proof (zlen_nonneg x) as X0. assert (TL : 16 <= taglen o s) by (unfold taglen; destruct (change o s); lia).
  destruct (Z.eqb_spec (zlen x) 16) as [L|L].
  2:{ eexists false, _. split; [reflexivity|]. split; [reflexivity|]. cbn [r_set r_in]. exists x, T1.
      split; [exact A5|]. split; [exact A7|]. destruct T1 as [|t T1].
      - right. left. rewrite A5, (A9 eq_refl (or_introl eq_refl)), app_nil_r by lia. lia.
      - left. exists t. split; [left; reflexivity|]. destruct (A8 t (or_introl eq_refl)). lia. }
  assert (T1 = []) as ->. { destruct T1 as [|t T1]; [reflexivity|]. destruct (A8 t (or_introl eq_refl)). lia. }
  assert (F : firstn 16 (net_bytes (r_in r)) = x).
  { rewrite A5. replace 16%nat with (length x) by (unfold zlen in L; lia). rewrite firstn_app, Nat.sub_diag, firstn_O, app_nil_r.
    apply firstn_all. }
  rewrite L in A7. cbn [app] in A7.
  destruct (tag_ok K (r_dec r1) x) eqn:TO; cbn [negb].
  2:{ eexists false, _. split; [reflexivity|]. split; [reflexivity|]. cbn [r_set r_in]. exists x, [].
      rewrite L. split; [exact A5|]. split; [exact A7|]. right. right. rewrite F. intros Y.
      assert (Q : tag_ok K (r_dec r1) x = true) by (apply tag_ok_spec; rewrite A1, R1; exact Y). congruence. }
  pose proof TO as TO'. apply tag_ok_spec in TO'. rewrite A1, R1 in TO'. cbn [cr_iv cr_c] in TO'.
  unfold checkAndChangeDecryptionIv. cbn [r_dec r_total r_err r_in r_tags r_starts].
  assert (X1 : r_err r1 = OK) by (apply B1; intros ->; discriminate L).
  assert (NC : change o s = false ->
    exists iv : list Z,
      (zlen iv = if change o s then 16 else 0) /\
      net_bytes (r_in r) = tagf K (x_iv s) (x_c s) ++ iv ++ net_bytes (r_in r1) /\
      rel {| r_dec := r_dec r1; r_total := r_total r1; r_err := r_err r1; r_in := r_in r1; r_tags := r_tags r1 + 1; r_starts := r_starts r1 |} (with_iv o s iv) /\
      zlen (tagf K (x_iv s) (x_c s)) = 16 /\
      timeouts off (r_in r) = timeouts (off + taglen o s) (r_in r1) /\
      r_tags r1 + 1 = r_tags r + 1 /\
      r_starts r1 = r_starts r ++ (if change o s then [x_pos s] else [])).
  { intros C. exists []. unfold with_iv, taglen. rewrite C, Z.add_0_r, app_nil_r, <- TO'. cbn [app].
    repeat split; try assumption; try congruence; cbn [r_dec r_total]; congruence. }
  unfold change in NC at 1.
  assert (RC : cr_c (r_dec r1) = x_c s) by (rewrite A1, R1; reflexivity). rewrite RC.
  destruct (so_lim o =? 0) eqn:L0.
  { eexists true, _. split; [reflexivity|]. cbn [r_in r_tags r_starts]. apply NC. reflexivity. }
  destruct (Z.leb_spec (zlen (x_c s) + so_k o) (so_lim o)) as [LL|LL].
  { eexists true, _. split; [reflexivity|]. cbn [r_in r_tags r_starts]. apply NC. cbn [negb andb]. apply Z.ltb_ge. lia. }
  clear NC.
  assert (C : change o s = true) by (unfold change; rewrite L0; cbn [negb andb]; apply Z.ltb_lt; lia).
  match goal with |- context [readInternal ?u 16 true] =>
    destruct (readInternal_ok u 16 true (off + 16) ltac:(lia))
      as (y & r2 & T2 & -> & D1 & D2 & D3 & D4 & D5 & D6 & D7 & D8 & D9 & E1 & E2) end.
  cbn [r_dec r_total r_err r_in r_tags r_starts] in *. unfold taglen in *. rewrite C in *.
  destruct (Z.eqb_spec (zlen y) 16) as [L2|L2]; cbn [negb].
  2:{ eexists false, _. split; [reflexivity|]. split; [reflexivity|]. cbn [r_set r_in].
      exists (x ++ y), T2. rewrite zlen_app, L, A5, D5, app_assoc. split; [reflexivity|].
      split. { rewrite A7, D7, Z.add_assoc. reflexivity. }
      pose proof (zlen_nonneg y). destruct T2 as [|t T2].
      - right. left. rewrite (D9 eq_refl (or_introl eq_refl)), app_nil_r, zlen_app by lia. lia.
      - left. exists t. split; [left; reflexivity|]. destruct (D8 t (or_introl eq_refl)). lia. }
  rewrite D1, TO. cbn [negb]. eexists true, _. split; [reflexivity|]. cbn [r_in r_tags r_starts].
  assert (T2 = []) as ->. { destruct T2 as [|t T2]; [reflexivity|]. destruct (D8 t (or_introl eq_refl)). lia. }
  exists y. split; [exact L2|]. rewrite <- TO'. split; [rewrite A5, D5; reflexivity|].
  split. { unfold with_iv. rewrite C. repeat split; cbn; try lia. }
  split; [exact L|]. split. { rewrite A7, D7, L2. cbn [app]. f_equal. lia. }
  split; [lia|]. rewrite D4, A4, D2, A2, R2. reflexivity.
Qed.

(** ** Any wire *)
Definition step_ok K o r s f off bs r' : Prop :=
  exists w extra lost s' f' T1,
    net_bytes (r_in r) = w ++ extra ++ net_bytes (r_in r') /\
    taken f K o (s, f) w (bs ++ lost) (s', f') /\
    timeouts off (r_in r) = T1 ++ timeouts (off + zlen (w ++ extra)) (r_in r') /\
    (live (r_err r') -> extra = [] /\ lost = [] /\ rel r' s' /\ (f' = true -> due (so_k o) s' = true)) /\
    (f' = true -> live (r_err r') -> In (off + zlen w) T1 /\ r_err r' <> OK).

Lemma with_iv_due k o s iv : due k (with_iv o s iv) = due k s.
Proof. unfold with_iv, due. destruct (change o s); reflexivity. Qed.
Lemma with_iv_pos o s iv : x_pos (with_iv o s iv) = x_pos s.
Proof. unfold with_iv. destruct (change o s); reflexivity. Qed.
Lemma taken_tag K o s f iv :
  due (so_k o) s = true -> (zlen iv = if change o s then 16 else 0) ->
  taken f K o (s, f) (tagf K (x_iv s) (x_c s) ++ iv) [] (with_iv o s iv, true).
Proof.
  intros D L. assert (F : f = true \/ f = false) by (destruct f; auto). unfold with_iv. destruct (change o s) eqn:C.
  - rewrite <- (app_nil_r iv) at 1. apply tk_iv; auto. constructor.
  - destruct iv; [|rewrite zlen_cons in L; pose proof (zlen_nonneg iv); lia]. apply tk_tag; auto. constructor.
Qed.
Lemma zlen_0 {A} (l : list A) : zlen l = 0 -> l = [].
Proof. destruct l; [reflexivity|]. rewrite zlen_cons. pose proof (zlen_nonneg l). lia. Qed.
Lemma live_dec e : live e \/ ~ live e.
Proof. unfold live. destruct (Z.eq_dec e OK), (Z.eq_dec e WDT_TIMEOUT); tauto. Qed.
Lemma not_live_enc : ~ live ENCRYPTION_ERROR.
Proof. intros [H|H]; discriminate. Qed.
Lemma not_live_sock : ~ live SOCKET_READ_ERROR.
Proof. intros [H|H]; discriminate. Qed.

(** Reading data from a position where it may be read. *)
Lemma rad_step K o r s f n full off :
  0 < n -> rel r s -> (due (so_k o) s = false \/ f = true) -> (f = true -> due (so_k o) s = true) ->
  (so_k o <= 0 \/ x_pos s mod so_k o + n <= so_k o) ->
  exists bs r', readAndDecrypt K r n full = Ret (bs, r') /\ zlen bs <= n /\
    (zlen bs = n -> r_err r' = OK) /\
    exists w s' T1,
      net_bytes (r_in r) = w ++ net_bytes (r_in r') /\
      taken false K o (s, f) w bs (s', match bs with [] => f | _ => false end) /\
      timeouts off (r_in r) = T1 ++ timeouts (off + zlen w) (r_in r') /\ rel r' s' /\ zlen w = zlen bs /\ s' = adv s w /\
      (bs = [] -> live (r_err r') -> In (off + zlen w) T1 /\ r_err r' <> OK).
Proof.
  intros N R D F H. destruct (rad_ok K r s n full off N R) as (x & r' & T1 & E & R' & G1 & G2 & G3 & G4 & G5 & G6 & G7 & G8 & G9).
  eexists _, r'. split; [exact E|]. rewrite zlen_xor. split; [lia|].
  split. { intros L. apply G8. intros ->. rewrite zlen_nil in L. lia. }
  exists x, (adv s x), T1. split; [exact G3|]. split.
  { pose proof (taken_run false K o x s f (proj2 (proj2 R)) D) as T. destruct x; apply T.
    all: destruct H as [H|H]; [left; exact H|right; lia]. }
  split; [exact G5|]. split; [exact R'|]. split; [reflexivity|]. split; [reflexivity|].
  intros B L. destruct x; [|discriminate]. destruct (G9 eq_refl) as [[-> ->] | [Y _]].
  - split; [left; rewrite zlen_nil; lia|discriminate].
  - rewrite Y in L. destruct (not_live_sock L).
Qed.

Lemma rawt_step K o r s f n full off :
  0 < so_k o -> 0 < n <= so_k o -> rel r s -> (f = true -> due (so_k o) s = true) ->
  exists bs r', readAndDecryptWithTag K o r n full = Ret (bs, r') /\ zlen bs <= n /\ step_ok K o r s f off bs r' /\
    (zlen bs = n -> r_err r' = OK).
Proof.
  intros KP N R F. pose proof R as (R1 & R2 & R3). unfold readAndDecryptWithTag.
  rewrite (proj2 (Z.leb_gt _ _)) by lia. rewrite (proj2 (Z.ltb_ge _ _)) by lia. cbn [orb]. rewrite R2.
  pose proof (Z.mod_pos_bound (x_pos s) (so_k o) KP) as MB.
  destruct (due (so_k o) s) eqn:Du.
  - rewrite (nto_due _ _ Du). rewrite (proj2 (Z.ltb_lt 0 n)) by lia. change (0 <? 0) with false. cbn [obind andb].
    apply due_true in Du as Du'. rewrite R2. destruct Du' as (_ & _ & ->). change (negb (0 =? 0)) with false. cbv iota.
    destruct (read_tag_ok K o r s off R) as (ok & r1 & -> & H). destruct ok.
    + destruct H as (iv & H1 & H2 & H3 & H4 & H5 & _). rewrite zlen_nil, Z.sub_0_r.
      pose proof (taken_tag K o s f iv Du H1) as TT. cbn [app].
      assert (X : zlen (tagf K (x_iv s) (x_c s) ++ iv) = taglen o s) by (rewrite zlen_app, H4, H1; reflexivity).
      destruct (rad_step K o r1 (with_iv o s iv) true n full (off + taglen o s)) as (bs & r2 & E & L1 & L2 & w & s2 & T1 & A1 & A2 & A3 & A4 & A5 & A6 & A7).
      { lia. } { exact H3. } { auto. } { rewrite with_iv_due. auto. }
      { right. rewrite with_iv_pos. apply due_true in Du as (_ & _ & ->). lia. }
      rewrite E. cbn [obind]. exists bs, r2. split; [reflexivity|]. split; [exact L1|]. split; [|exact L2].
      exists ((tagf K (x_iv s) (x_c s) ++ iv) ++ w), [], [], s2, (match bs with [] => true | _ => false end), T1. rewrite (app_nil_r bs). split.
      { rewrite H2, A1, !app_assoc, !app_nil_r. reflexivity. }
      split. { change bs with ([] ++ bs). eapply taken_app; [exact TT|]. apply taken_weak. exact A2. }
      split. { rewrite app_nil_r, zlen_app, X, H5, A3. f_equal. f_equal. lia. }
      split. { intros LV. repeat split; try apply A4. intros B. destruct bs; [|discriminate].
               rewrite A6. assert (w = []) as ->. { apply zlen_0. exact A5. }
               rewrite adv_nil, with_iv_due. exact Du. }
      intros B LV. destruct bs; [|discriminate]. rewrite zlen_app, X, Z.add_assoc. auto.
    + destruct H as (H1 & extra & T1 & H2 & H3 & _). exists [], r1. split; [reflexivity|]. split; [rewrite zlen_nil; lia|].
      split; [|rewrite zlen_nil; lia]. exists [], extra, [], s, f, T1. cbn [app]. rewrite H1.
      split; [exact H2|]. split; [constructor|]. split; [exact H3|].
      split; [intros X; destruct (not_live_enc X)|intros _ X; destruct (not_live_enc X)].
  - destruct f; [discriminate (F eq_refl)|]. destruct (nto_not _ _ KP R3 Du) as (N1 & N2). rewrite N1 in *.
    set (nto := so_k o - x_pos s mod so_k o) in *. destruct (Z.ltb_spec nto n) as [L|L].
    + rewrite (proj2 (Z.ltb_lt 0 nto)) by lia.
      destruct (rad_step K o r s false nto full off) as (got & r1 & E & L1 & L2 & w & s1 & T1 & A1 & A2 & A3 & A4 & A5 & A6 & A7); [exact N2|exact R|left; exact Du|discriminate|right; lia|].
      rewrite E. cbn [obind andb]. destruct (Z.ltb_spec (zlen got) nto) as [S|S].
      * exists got, r1. split; [reflexivity|]. split; [lia|]. split; [|lia]. exists w, [], [], s1, false, T1. rewrite !app_nil_r. cbn [app].
        repeat split; auto; try apply A4; try discriminate. destruct got; exact A2.
      * assert (SL : zlen got = nto) by lia. assert (Du1 : due (so_k o) s1 = true).
        { rewrite A6. apply due_adv; [exact KP|exact R3|lia]. }
        pose proof A4 as (B1 & B2 & B3). apply due_true in Du1 as Du'. rewrite B2. destruct Du' as (_ & _ & DM). rewrite DM.
        change (negb (0 =? 0)) with false. cbv iota.
        assert (G0 : got <> []) by (intros ->; rewrite zlen_nil in SL; lia).
        assert (A2' : taken false K o (s, false) w got (s1, false)) by (destruct got; [congruence|exact A2]).
        destruct (read_tag_ok K o r1 s1 (off + zlen w) A4) as (ok & r2 & -> & H). destruct ok.
        -- destruct H as (iv & H1 & H2 & H3 & H4 & H5 & _).
           pose proof (taken_tag K o s1 false iv Du1 H1) as TT.
           assert (X : zlen (tagf K (x_iv s1) (x_c s1) ++ iv) = taglen o s1) by (rewrite zlen_app, H4, H1; reflexivity).
           destruct (rad_step K o r2 (with_iv o s1 iv) true (n - zlen got) full (off + zlen w + taglen o s1)) as (bs & r3 & E3 & L3 & L4 & w3 & s3 & T3 & C1 & C2 & C3 & C4 & C5 & C6 & C7).
           { lia. } { exact H3. } { auto. } { rewrite with_iv_due. auto. }
           { right. rewrite with_iv_pos, DM. lia. }
           rewrite E3. cbn [obind]. exists (got ++ bs), r3. split; [reflexivity|]. rewrite zlen_app. split; [lia|].
           split; [|intros Z0; apply L4; lia].
           exists (w ++ (tagf K (x_iv s1) (x_c s1) ++ iv) ++ w3), [], [], s3, (match bs with [] => true | _ => false end), (T1 ++ T3). rewrite (app_nil_r (got ++ bs)). split.
           { rewrite A1, H2, C1, !app_assoc, !app_nil_r. reflexivity. }
           split. { eapply taken_app; [exact A2'|]. change bs with ([] ++ bs). eapply taken_app; [exact TT|]. exact C2. }
           split. { rewrite app_nil_r, !zlen_app in *. rewrite A3, H5, C3, <- app_assoc. f_equal. f_equal. f_equal. lia. }
           split. { intros LV. repeat split; try apply C4. intros B. destruct bs; [|discriminate].
                    rewrite C6. assert (w3 = []) as ->. { apply zlen_0. exact C5. }
                    rewrite adv_nil, with_iv_due. exact Du1. }
           intros B LV. destruct bs; [|discriminate]. destruct (C7 eq_refl LV) as (Q1 & Q2). split; [|exact Q2].
           apply in_or_app. right. rewrite zlen_app, (zlen_app _ w3), X.
           replace (off + (zlen w + (taglen o s1 + zlen w3))) with (off + zlen w + taglen o s1 + zlen w3) by lia. auto.
        -- destruct H as (H1 & extra & T2 & H2 & H3 & _). exists [], r2. split; [reflexivity|]. split; [rewrite zlen_nil; lia|].
           split; [|rewrite zlen_nil; lia]. exists w, extra, got, s1, false, (T1 ++ T2). cbn [app]. rewrite H1.
           split; [rewrite A1, H2; reflexivity|]. split; [exact A2'|]. split.
           { rewrite A3, H3, zlen_app, app_assoc, Z.add_assoc. reflexivity. }
           split; [intros X; destruct (not_live_enc X)|intros _ X; destruct (not_live_enc X)].
    + cbn [zlen]. rewrite zlen_nil, Z.sub_0_r.
      destruct (rad_step K o r s false n full off) as (bs & r1 & E & L1 & L2 & w & s1 & T1 & A1 & A2 & A3 & A4 & A5 & A6 & A7); [lia|exact R|left; exact Du|discriminate|right; lia|].
      rewrite E. cbn [obind app]. exists bs, r1. split; [reflexivity|]. split; [exact L1|]. split; [|exact L2].
      exists w, [], [], s1, false, T1. rewrite !app_nil_r. cbn [app]. repeat split; auto; try apply A4; try discriminate. destruct bs; exact A2.
Qed.

Lemma step_app K o r s f off bs1 r1 bs2 r2 :
  step_ok K o r s f off bs1 r1 -> r_err r1 = OK ->
  (forall s1 off1, rel r1 s1 -> step_ok K o r1 s1 false off1 bs2 r2) ->
  step_ok K o r s f off (bs1 ++ bs2) r2.
Proof.
  intros (w & extra & lost & s1 & f1 & T1 & A1 & A2 & A3 & A4 & A5) OKe H.
  assert (LV : live (r_err r1)) by (left; exact OKe). destruct (A4 LV) as (-> & -> & R1 & D1).
  assert (f1 = false) as ->. { destruct f1; [|reflexivity]. destruct (A5 eq_refl LV) as (_ & X). congruence. }
  destruct (H s1 (off + zlen w) R1) as (w2 & e2 & l2 & s2 & f2 & T2 & B1 & B2 & B3 & B4 & B5).
  rewrite app_nil_r in A2, A3. cbn [app] in A1. exists (w ++ w2), e2, l2, s2, f2, (T1 ++ T2).
  split; [rewrite A1, B1, app_assoc; reflexivity|]. split.
  { rewrite <- app_assoc. eapply taken_app; [exact A2|]. apply taken_weak. exact B2. }
  split; [rewrite A3, B3, <- !app_assoc, (zlen_app w), Z.add_assoc; reflexivity|]. split; [exact B4|].
  intros F LV2. destruct (B5 F LV2) as (C1 & C2). split; [|exact C2]. apply in_or_app. right. rewrite zlen_app, Z.add_assoc. exact C1.
Qed.
Lemma step_nil K o r s off : rel r s -> step_ok K o r s false off [] r.
Proof.
  intros R. exists [], [], [], s, false, []. cbn [app]. rewrite zlen_nil, Z.add_0_r. repeat split; try apply R; try discriminate. constructor.
Qed.
Lemma read_loop_step K o full fuel : forall r s f n off,
  0 < so_k o -> 0 < n <= Z.of_nat fuel -> rel r s -> (f = true -> due (so_k o) s = true) ->
  exists bs r', read_loop fuel K o r n full = Ret (bs, r') /\ zlen bs <= n /\ step_ok K o r s f off bs r' /\
    (zlen bs = n -> r_err r' = OK).
Proof.
  induction fuel as [|fuel IH]; intros r s f n off KP N R F; [lia|]. cbn [read_loop].
  rewrite (proj2 (Z.leb_gt _ _)) by lia.
  assert (M : 0 < Z.min n (so_k o) <= so_k o) by lia. set (m := Z.min n (so_k o)) in *.
  destruct (rawt_step K o r s f m full off KP M R F) as (bs & r1 & -> & L1 & S1 & E1). cbn [obind].
  destruct (Z.ltb_spec (zlen bs) m) as [L|L].
  { exists bs, r1. split; [reflexivity|]. split; [lia|]. split; [exact S1|]. intros X. lia. }
  assert (EQ : zlen bs = m) by lia. specialize (E1 EQ).
  destruct (Z.eq_dec n (zlen bs)) as [X|X].
  - replace (n - zlen bs) with 0 by lia.
    assert (Z0 : read_loop fuel K o r1 0 full = Ret ([], r1)) by (destruct fuel; reflexivity). rewrite Z0. cbn [obind].
    rewrite app_nil_r. exists bs, r1. split; [reflexivity|]. split; [lia|]. split; [exact S1|auto].
  - pose proof S1 as (w & extra & lost & s1 & f1 & T1 & A1 & A2 & A3 & A4 & A5).
    destruct (A4 (or_introl E1)) as (_ & _ & R1 & _).
    assert (N2 : 0 < n - zlen bs <= Z.of_nat fuel) by lia.
    destruct (IH r1 s1 false (n - zlen bs) 0 KP N2 R1 ltac:(discriminate)) as (bs2 & r2 & E2 & L2 & _ & O2).
    rewrite E2. cbn [obind]. exists (bs ++ bs2), r2. split; [reflexivity|]. rewrite zlen_app. split; [lia|]. split.
    + eapply step_app; [exact S1|exact E1|]. intros s1' off1 R1'.
      destruct (IH r1 s1' false (n - zlen bs) off1 KP N2 R1' ltac:(discriminate)) as (bs3 & r3 & E3 & _ & S3 & _).
      rewrite E2 in E3. injection E3 as <- <-. exact S3.
    + intros Y. apply O2. lia.
Qed.
Lemma sock_read_call_step K o r s f n full off :
  0 <= so_k o -> 0 < n -> live (r_err r) -> rel r s -> (f = true -> due (so_k o) s = true) ->
  exists bs r', sock_read_call K o r n full = Ret (bs, r') /\ zlen bs <= n /\ step_ok K o r s f off bs r'.
Proof.
  intros KP N LV R F. unfold sock_read_call. rewrite (proj2 (Z.leb_gt _ _)) by lia.
  assert (X : negb (r_err r =? OK) && negb (r_err r =? WDT_TIMEOUT) = false).
  { destruct LV as [-> | ->]; reflexivity. }
  rewrite X. set (r0 := r_set r OK (r_in r)). assert (R0 : rel r0 s) by exact R.
  destruct (Z.leb_spec (so_k o) 0) as [K0|K0].
  - assert (Du : due (so_k o) s = false). { destruct (due (so_k o) s) eqn:Du; [|reflexivity]. apply due_true in Du. lia. }
    destruct f; [rewrite Du in F; discriminate (F eq_refl)|].
    destruct (rad_step K o r0 s false n full off N R0) as (bs & r1 & E & L1 & L2 & w & s1 & T1 & A1 & A2 & A3 & A4 & A5 & A6 & A7);
      [left; exact Du|discriminate|left; exact K0|].
    exists bs, r1. split; [exact E|]. split; [exact L1|]. exists w, [], [], s1, false, T1. rewrite !app_nil_r. cbn [app].
    repeat split; auto; try apply A4; try discriminate. destruct bs; exact A2.
  - assert (N' : 0 < n <= Z.of_nat (Z.to_nat n)) by lia.
    destruct (read_loop_step K o full (Z.to_nat n) r0 s f n off K0 N' R0 F) as (bs & r' & E & L & S & _). eauto.
Qed.

(** A socket that failed stays so. *)
Lemma sock_reads_dead K o l : forall r, ~ live (r_err r) -> Forall (fun q => 0 < fst q) l -> sock_reads K o r l = Ret ([], r).
Proof.
  induction l as [|[n full] l IH]; intros r D F; [reflexivity|]. inversion F as [|? ? P F']; subst. cbn [fst] in P.
  cbn [sock_reads]. unfold sock_read_call. rewrite (proj2 (Z.leb_gt _ _)) by lia.
  assert (X : negb (r_err r =? OK) && negb (r_err r =? WDT_TIMEOUT) = true).
  { unfold live in D. destruct (Z.eqb_spec (r_err r) OK), (Z.eqb_spec (r_err r) WDT_TIMEOUT); tauto. }
  rewrite X. cbn [obind]. rewrite (IH r D F'). reflexivity.
Qed.
Lemma taken_rep K o a w p b : forall rep, taken rep K o a w p b -> taken true K o a w p b.
Proof. intros rep. induction 1; [constructor|constructor; auto|apply tk_tag|apply tk_iv]; auto. Qed.

(** Every wire. *)
Lemma sock_reads_taken K o l : forall r s f,
  0 <= so_k o -> Forall (fun q => 0 < fst q) l -> live (r_err r) -> rel r s -> (f = true -> due (so_k o) s = true) ->
  exists bs r', sock_reads K o r l = Ret (bs, r') /\
    exists w extra lost s' f', net_bytes (r_in r) = w ++ extra ++ net_bytes (r_in r') /\
      taken true K o (s, f) w (bs ++ lost) (s', f') /\
      (live (r_err r') -> extra = [] /\ lost = [] /\ rel r' s').
Proof.
  induction l as [|[n full] l IH]; intros r s f KP Q LV R F; cbn [sock_reads].
  - exists [], r. split; [reflexivity|]. exists [], [], [], s, f. split; [reflexivity|]. split; [constructor|]. auto.
  - inversion Q as [|? ? P Q']; subst. cbn [fst] in P.
    destruct (sock_read_call_step K o r s f n full 0 KP P LV R F) as (bs & r1 & -> & _ & S). cbn [obind].
    destruct S as (w & extra & lost & s1 & f1 & T1 & A1 & A2 & A3 & A4 & A5). apply taken_rep in A2.
    destruct (live_dec (r_err r1)) as [L1|L1].
    + destruct (A4 L1) as (-> & -> & R1 & F1). rewrite app_nil_r in A2.
      destruct (IH r1 s1 f1 KP Q' L1 R1 F1) as (bs2 & r2 & -> & w2 & e2 & l2 & s2 & f2 & B1 & B2 & B3). cbn [obind].
      exists (bs ++ bs2), r2. split; [reflexivity|]. exists (w ++ w2), e2, l2, s2, f2. split; [rewrite A1, B1, <- app_assoc; reflexivity|].
      split; [rewrite <- app_assoc; eapply taken_app; eauto|exact B3].
    + rewrite (sock_reads_dead K o l r1 L1 Q'). cbn [obind]. rewrite app_nil_r. exists bs, r1. split; [reflexivity|].
      exists w, extra, lost, s1, f1. repeat split; auto; tauto.
Qed.

(** ** The wire of the writer *)
(** [at_ s0 w p (s, f)]: from [s0], [w] was read and [p] got. *)
Definition at_ K o (s0 : pst) (w p : list Z) (sf : pst * bool) : Prop :=
  let '(s, f) := sf in
  if f : bool
  then due (so_k o) (after K o s0 p) = true /\ w = wire K o s0 p ++ lead K o (after K o s0 p) /\ s = ready o (after K o s0 p)
  else w = wire K o s0 p /\ s = after K o s0 p.
Lemma app_same_len {A} (a b c d : list A) : a ++ b = c ++ d -> length a = length c -> a = c /\ b = d.
Proof.
  revert c. induction a as [|x a IH]; intros [|y c] H L; try discriminate; cbn in *; [auto|].
  injection H as -> H. destruct (IH c H ltac:(lia)) as [-> ->]. auto.
Qed.
Lemma good_hd ivs : good_ivs ivs -> zlen (hd iv0 ivs) = 16.
Proof. intros G. destruct ivs; [reflexivity|]. inversion G; auto. Qed.
Lemma good_pnext K o s b : good_ivs (x_ivs s) -> good_ivs (x_ivs (pnext K o s b)).
Proof.
  intros G. unfold pnext, byte_next, ready, tag_next. cbn [x_ivs]. destruct (due (so_k o) s), (change o s); try exact G.
  cbn [x_ivs]. destruct (x_ivs s); [exact G|]. inversion G; auto.
Qed.
Lemma good_after K o p : forall s, good_ivs (x_ivs s) -> good_ivs (x_ivs (after K o s p)).
Proof. induction p as [|b p IH]; intros s G; [exact G|]. cbn [after]. apply IH. apply good_pnext. exact G. Qed.
Lemma ready_due o s : due (so_k o) (ready o s) = due (so_k o) s.
Proof. unfold due. rewrite pos_ready. reflexivity. Qed.

Lemma taken_wire K o s0 : good_cipher K -> good_ivs (x_ivs s0) -> forall a w p b,
  taken false K o a w p b -> forall plain w0 p0 p2 rest,
  at_ K o s0 w0 p0 a -> plain = p0 ++ p2 -> wire K o s0 plain = (w0 ++ w) ++ rest ->
  exists p3, plain = (p0 ++ p) ++ p3 /\ at_ K o s0 (w0 ++ w) (p0 ++ p) b.
Proof.
  intros GC GI. induction 1 as [[s f]|s f x w p s' D T IH|s f w p s' D Rp C T IH|s f iv w p s' D Rp C L T IH]; intros plain w0 p0 p2 rest A P W.
  - exists p2. rewrite !app_nil_r. auto.
  - subst plain. rewrite wire_app in W.
    assert (W' : exists b q, p2 = b :: q /\ x = cbyte K s b /\ s = ready o (after K o s0 p0) /\ w0 = wire K o s0 p0 ++ lead K o (after K o s0 p0)).
    { destruct f; cbn [at_] in A.
      - destruct A as (A1 & A2 & A3). rewrite A2, <- !app_assoc in W. apply app_inv_head in W.
        destruct p2 as [|b q]; [cbn [wire] in W; destruct (lead K o (after K o s0 p0)); discriminate W|].
        cbn [wire] in W. apply app_inv_head in W. injection W as W1 W2. exists b, q. rewrite A3. auto.
      - destruct A as (A1 & A2). destruct D as [D|D]; [|discriminate]. rewrite A1, <- app_assoc in W. apply app_inv_head in W.
        rewrite A2 in D. destruct p2 as [|b q]; [discriminate W|]. cbn [wire] in W. unfold lead at 1 in W. rewrite D in W. cbn [app] in W.
        injection W as W1 W2. exists b, q. unfold ready in *. rewrite D in *. unfold lead. rewrite D, app_nil_r. subst s. auto. }
    destruct W' as (b & q & -> & Ex & Es & Ew).
    assert (X : cbyte K s x = b).
    { rewrite Ex. unfold cbyte. rewrite Z.lxor_assoc, Z.lxor_nilpotent, Z.lxor_0_r. reflexivity. }
    rewrite X.
    destruct (IH (p0 ++ b :: q) (w0 ++ [x]) (p0 ++ [b]) q rest) as (p3 & P3 & A3).
    + cbn [at_]. rewrite wire_app, after_app. cbn [wire after]. rewrite Ew, Ex, Es, <- app_assoc. split; reflexivity.
    + rewrite <- app_assoc. reflexivity.
    + rewrite wire_app, W. rewrite <- !app_assoc. reflexivity.
    + exists p3. rewrite <- !app_assoc in *. cbn [app] in *. auto.
  - subst plain. destruct Rp as [Rp|Rp]; [discriminate|]. subst f. cbn [at_] in A. destruct A as (A1 & A2).
    assert (LE : lead K o s = tagf K (x_iv s) (x_c s)) by (unfold lead, tag_bytes; rewrite D, C, app_nil_r; reflexivity).
    destruct (IH (p0 ++ p2) (w0 ++ tagf K (x_iv s) (x_c s)) p0 p2 rest) as (p3 & P3 & A3).
    + cbn [at_]. rewrite <- A2. split; [exact D|]. rewrite LE, A1. split; [reflexivity|]. unfold ready, tag_next. rewrite D, C. reflexivity.
    + reflexivity.
    + rewrite W, <- !app_assoc. reflexivity.
    + exists p3. rewrite <- app_assoc in A3. auto.
  - subst plain. destruct Rp as [Rp|Rp]; [discriminate|]. subst f. cbn [at_] in A. destruct A as (A1 & A2).
    assert (LE : lead K o s = tagf K (x_iv s) (x_c s) ++ hd iv0 (x_ivs s)) by (unfold lead, tag_bytes; rewrite D, C; reflexivity).
    assert (EI : iv = hd iv0 (x_ivs s)).
    { rewrite wire_app, A1, <- !app_assoc in W. apply app_inv_head in W. rewrite <- A2 in W.
      destruct p2 as [|b q]. { cbn [wire] in W. pose proof (GC (x_iv s) (x_c s)) as G. destruct (tagf K (x_iv s) (x_c s)); [discriminate G|discriminate W]. }
      cbn [wire] in W. rewrite LE, <- !app_assoc in W. apply app_inv_head in W. symmetry in W. apply app_same_len in W; [apply W|].
      assert (G : zlen (hd iv0 (x_ivs s)) = 16) by (apply good_hd; rewrite A2; apply good_after; exact GI). unfold zlen in *. lia. }
    destruct (IH (p0 ++ p2) (w0 ++ tagf K (x_iv s) (x_c s) ++ iv) p0 p2 rest) as (p3 & P3 & A3).
    + cbn [at_]. rewrite <- A2. split; [exact D|]. rewrite LE, A1, EI. split; [reflexivity|]. unfold ready, tag_next. rewrite D, C. reflexivity.
    + reflexivity.
    + rewrite W, <- !app_assoc. reflexivity.
    + exists p3. rewrite <- !app_assoc in A3. auto.
Qed.

Lemma sock_reads_prefix K o iv ivs plain reqs net rest :
  0 <= so_k o -> good_cipher K -> good_ivs ivs -> Forall (fun q => 0 < fst q) reqs ->
  wire K o (pst0 iv ivs) plain = net_bytes net ++ rest ->
  unsplit K o (pst0 iv ivs) plain (timeouts 0 net) ->
  exists bs r', sock_reads K o (rsock0 iv net) reqs = Ret (bs, r') /\ (exists p2, plain = bs ++ p2) /\
    (live (r_err r') -> net_bytes net = wire K o (pst0 iv ivs) bs ++ net_bytes (r_in r')).
Proof.
  intros KP GC GI Q W U. set (s0 := pst0 iv ivs) in *.
  assert (G : forall reqs r s w p p2 T0, Forall (fun q => 0 < fst q) reqs -> live (r_err r) -> rel r s ->
    at_ K o s0 w p (s, false) -> plain = p ++ p2 -> net_bytes net = w ++ net_bytes (r_in r) ->
    timeouts 0 net = T0 ++ timeouts (zlen w) (r_in r) ->
    exists bs r', sock_reads K o r reqs = Ret (bs, r') /\ (exists p3, plain = (p ++ bs) ++ p3) /\
      (live (r_err r') -> net_bytes net = wire K o s0 (p ++ bs) ++ net_bytes (r_in r'))).
  { clear reqs Q. induction reqs as [|[n full] reqs IH]; intros r s w p p2 T0 Q LV R A P N TT; cbn [sock_reads].
    - exists [], r. split; [reflexivity|]. rewrite app_nil_r. split; [eauto|]. intros _. destruct A as (-> & _). exact N.
    - inversion Q as [|? ? P0 Q']; subst. cbn [fst] in P0.
      destruct (sock_read_call_step K o r s false n full (zlen w) KP P0 LV R ltac:(discriminate)) as (bs & r1 & -> & _ & S). cbn [obind].
      destruct S as (w1 & extra & lost & s1 & f1 & T1 & A1 & A2 & A3 & A4 & A5).
      destruct (taken_wire K o s0 GC GI _ _ _ _ A2 (p ++ p2) w p p2 (extra ++ net_bytes (r_in r1) ++ rest) A eq_refl) as (p3 & P3 & A').
      { rewrite W, N, A1, <- !app_assoc. reflexivity. }
      destruct (live_dec (r_err r1)) as [L1|L1].
      + destruct (A4 L1) as (-> & -> & R1 & F1). rewrite !app_nil_r in *. cbn [app] in A1.
        destruct f1.
        { exfalso. destruct A' as (D1 & D2 & D3). destruct (A5 eq_refl L1) as (In1 & _).
          apply (U (p ++ bs) p3 P3 D1). rewrite TT, A3.
          replace (zlen (wire K o s0 (p ++ bs)) + zlen (lead K o (after K o s0 (p ++ bs)))) with (zlen w + zlen w1)
            by (rewrite <- !zlen_app, D2; reflexivity).
          apply in_or_app. right. apply in_or_app. left. exact In1. }
        destruct (IH r1 s1 (w ++ w1) (p ++ bs) p3 (T0 ++ T1) Q' L1 R1 A' P3) as (bs2 & r2 & -> & (p4 & B1) & B2).
        { rewrite N, A1, app_assoc. reflexivity. }
        { rewrite TT, A3, zlen_app, app_assoc. reflexivity. }
        cbn [obind]. exists (bs ++ bs2), r2. split; [reflexivity|]. rewrite app_assoc. eauto.
      + rewrite (sock_reads_dead K o reqs r1 L1 Q'). cbn [obind]. rewrite app_nil_r. exists bs, r1. split; [reflexivity|].
        split; [exists (lost ++ p3); rewrite P3, <- !app_assoc; reflexivity|tauto]. }
  destruct (G reqs (rsock0 iv net) s0 [] [] plain [] Q) as (bs & r' & E & A & B); auto.
  - left; reflexivity.
  - repeat split; cbn; lia.
  - split; reflexivity.
  - exists bs, r'. auto.
Qed.

(** ** Getting everything *)
Definition quiet_at K o (off : Z) (s : pst) (plain : list Z) (T : list Z) : Prop :=
  forall p1 b p2 t, plain = p1 ++ b :: p2 -> due (so_k o) (after K o s p1) = true -> In t T ->
    t < off + zlen (wire K o s p1) \/ off + zlen (wire K o s p1) + zlen (lead K o (after K o s p1)) < t.
Lemma quiet_step K o off s p1 p2 T T1 :
  quiet_at K o off s (p1 ++ p2) (T1 ++ T) -> quiet_at K o (off + zlen (wire K o s p1)) (after K o s p1) p2 T.
Proof.
  intros Q q1 b q2 t E D I. destruct (Q (p1 ++ q1) b q2 t) as [H|H].
  - rewrite E, app_assoc. reflexivity.
  - rewrite after_app. exact D.
  - apply in_or_app. auto.
  - left. rewrite wire_app, zlen_app in H. lia.
  - right. rewrite wire_app, after_app, zlen_app in H. lia.
Qed.
Section Tail.
(** Bytes behind the data, such as the last tag. *)
Variable tail : list Z.

(** The result of a read on a writer's stream of which all of [p] is still to come. *)
Definition got_ok K o (r : rsock) (s : pst) (p : list Z) (off n : Z) (full : bool) (bs : list Z) (r' : rsock) : Prop :=
  exists p2 T1, p = bs ++ p2 /\ net_bytes (r_in r') = wire K o (after K o s bs) p2 ++ tail /\ rel r' (after K o s bs) /\
    live (r_err r') /\ timeouts off (r_in r) = T1 ++ timeouts (off + zlen (wire K o s bs)) (r_in r') /\
    (bs = [] -> T1 <> []) /\ (full = true -> T1 = [] -> zlen bs = n) /\
    r_starts r' = r_starts r ++ changes K o s bs /\ zlen bs <= n.
Lemma firstn_skipn_z {A} (l : list A) (n : Z) : l = firstn (Z.to_nat n) l ++ skipn (Z.to_nat n) l.
Proof. symmetry. apply firstn_skipn. Qed.
Lemma after_ready K o s x p :
  x = xor_from K (x_iv (ready o s)) (zlen (x_c (ready o s))) p -> p <> [] ->
  0 <= x_pos s -> (so_k o <= 0 \/ x_pos s mod so_k o + zlen p <= so_k o) ->
  wire K o s p = lead K o s ++ x /\ after K o s p = adv (ready o s) x /\
  changes K o s p = if due (so_k o) s && change o s then [x_pos s] else [].
Proof. intros -> NE P H. destruct p as [|b r]; [congruence|]. apply wire_run; assumption. Qed.

(** Data from where it may be read: [r] stands behind the tag, if one was due. *)
Lemma data_honest K o r s p m full off :
  0 < m <= zlen p -> (so_k o <= 0 \/ x_pos s mod so_k o + m <= so_k o) -> 0 <= x_pos s ->
  rel r (ready o s) -> wire K o s p ++ tail = lead K o s ++ net_bytes (r_in r) ->
  exists bs r' T1, readAndDecrypt K r m full = Ret (bs, r') /\
    timeouts off (r_in r) = T1 ++ timeouts (off + zlen bs) (r_in r') /\ live (r_err r') /\
    r_starts r' = r_starts r /\ zlen bs <= m /\ (full = true -> T1 = [] -> zlen bs = m) /\
    (zlen bs = m -> r_err r' = OK) /\
    ((bs = [] /\ T1 = [off] /\ rel r' (ready o s) /\ wire K o s p ++ tail = lead K o s ++ net_bytes (r_in r')) \/
     (bs <> [] /\ exists p2, p = bs ++ p2 /\ rel r' (after K o s bs) /\ net_bytes (r_in r') = wire K o (after K o s bs) p2 ++ tail /\
        zlen (wire K o s bs) = zlen (lead K o s) + zlen bs)).
Proof.
  intros M H P R W. destruct (rad_ok K r (ready o s) m full off ltac:(lia) R) as (x & r' & T1 & E & R' & G1 & G2 & G3 & G4 & G5 & G6 & G7 & G8 & G9).
  set (j := zlen x) in *. assert (J : 0 <= j <= zlen p) by (pose proof (zlen_nonneg x); lia).
  set (bs := firstn (Z.to_nat j) p). set (p2 := skipn (Z.to_nat j) p).
  assert (Ep : p = bs ++ p2) by apply firstn_skipn_z.
  assert (Lb : zlen bs = j) by (apply firstn_skipn_len; lia).
  assert (NEp : net_bytes (r_in r) <> []).
  { intros X. rewrite X, app_nil_r in W. destruct p as [|b q]; [cbn in M; lia|]. cbn [wire] in W.
    rewrite <- app_assoc in W. rewrite <- (app_nil_r (lead K o s)) in W at 2. apply app_inv_head in W. discriminate. }
  assert (Hx : xor_from K (x_iv (ready o s)) (zlen (x_c (ready o s))) x = bs /\
    (x <> [] -> bs <> [] /\ rel r' (after K o s bs) /\ net_bytes (r_in r') = wire K o (after K o s bs) p2 ++ tail /\
        zlen (wire K o s bs) = zlen (lead K o s) + zlen bs)).
  { destruct (list_eq_dec Z.eq_dec x []) as [X|X].
    - split; [|congruence]. rewrite X. unfold bs, j. rewrite X. reflexivity.
    - assert (NB : bs <> []). { intros Y. rewrite Y in Lb. apply X. apply zlen_0. fold j. rewrite <- Lb. reflexivity. }
      destruct (after_ready K o s _ bs eq_refl NB P) as (W1 & W2 & W3). { destruct H as [H|H]; [left; exact H|right; lia]. }
      rewrite Ep, wire_app, W1, <- !app_assoc in W. apply app_inv_head in W. rewrite G3 in W.
      apply app_same_len in W. 2:{ assert (L : zlen (xor_from K (x_iv (ready o s)) (zlen (x_c (ready o s))) bs) = zlen x) by (rewrite zlen_xor; exact Lb).
        apply Nat2Z.inj. exact L. }
      destruct W as (Wx & Wr). split. { rewrite <- Wx. apply xor_inv. }
      intros _. split; [exact NB|]. split; [rewrite W2, Wx; exact R'|]. split; [symmetry; exact Wr|]. rewrite W1, Wx, zlen_app. lia. }
  destruct Hx as (Hx & Hx2). rewrite Hx in E. exists bs, r', T1. rewrite Lb. split; [exact E|]. split; [exact G5|].
  assert (LV : live (r_err r') /\ (x = [] -> T1 = [off])).
  { destruct (list_eq_dec Z.eq_dec x []) as [X|X].
    - destruct (G9 X) as [[Y1 Y2] | [Y1 Y2]]; [split; [right; exact Y1|auto]|]. exfalso. apply NEp.
      rewrite G3, X. apply G7; auto. unfold j. rewrite X, zlen_nil. lia.
    - split; [left; auto|congruence]. }
  destruct LV as (LV & LV2). split; [exact LV|]. split; [exact G2|]. split; [exact G4|].
  split. { intros F T. destruct (Z.eq_dec j m) as [Y|Y]; [exact Y|]. exfalso.
    assert (NN : net_bytes (r_in r') = []) by (apply G7; auto; lia).
    destruct (list_eq_dec Z.eq_dec x []) as [X|X]; [rewrite (LV2 X) in T; discriminate|].
    destruct (Hx2 X) as (_ & _ & B & _). rewrite NN in B.
    assert (L2 : 0 < zlen p2) by (unfold p2; rewrite zlen_skipn; lia).
    destruct p2 as [|c q]; [cbn in L2; lia|]. cbn [wire] in B. destruct (lead K o (after K o s bs)); discriminate. }
  split. { intros Y. apply G8. intros X. unfold j in Y. rewrite X, zlen_nil in Y. lia. }
  destruct (list_eq_dec Z.eq_dec x []) as [X|X].
  - left. rewrite X, adv_nil in R'. rewrite X in G3. cbn [app] in G3. rewrite <- G3.
    split; [unfold bs, j; rewrite X; reflexivity|]. auto.
  - right. destruct (Hx2 X) as (Y1 & Y2 & Y3 & Y4). split; [exact Y1|]. exists p2. rewrite Lb in Y4. auto.
Qed.

Lemma lead_len K o s : good_cipher K -> good_ivs (x_ivs s) -> due (so_k o) s = true -> zlen (lead K o s) = taglen o s.
Proof.
  intros GC GI D. unfold lead, tag_bytes, taglen. rewrite D, zlen_app, GC. destruct (change o s); [rewrite good_hd by exact GI|rewrite zlen_nil]; lia.
Qed.
(** A tag the writer wrote. *)
Lemma tag_honest K o r s b q off T1 :
  good_cipher K -> good_ivs (x_ivs s) -> due (so_k o) s = true -> rel r s ->
  net_bytes (r_in r) = wire K o s (b :: q) ++ tail -> quiet_at K o off s (b :: q) (T1 ++ timeouts off (r_in r)) ->
  exists r', read_tag K o r = (true, r') /\ rel r' (ready o s) /\
    wire K o s (b :: q) ++ tail = lead K o s ++ net_bytes (r_in r') /\
    timeouts off (r_in r) = timeouts (off + zlen (lead K o s)) (r_in r') /\
    r_starts r' = r_starts r ++ if change o s then [x_pos s] else [].
Proof.
  intros GC GI D R N Q. pose proof (lead_len K o s GC GI D) as LL.
  destruct (read_tag_ok K o r s off R) as (ok & r' & E & H). exists r'. destruct ok.
  - destruct H as (iv & H1 & H2 & H3 & H4 & H5 & H6 & H7). split; [exact E|].
    assert (LE : lead K o s = tagf K (x_iv s) (x_c s) ++ (if change o s then hd iv0 (x_ivs s) else [])).
    { unfold lead, tag_bytes. rewrite D. reflexivity. }
    assert (X : iv = if change o s then hd iv0 (x_ivs s) else []).
    { rewrite H2 in N. cbn [wire] in N. rewrite LE, <- !app_assoc in N. apply app_inv_head in N.
      apply app_same_len in N; [apply N|]. assert (zlen iv = zlen (if change o s then hd iv0 (x_ivs s) else [])).
      { rewrite H1. destruct (change o s); [rewrite good_hd by exact GI|]; reflexivity. }
      unfold zlen in *. lia. }
    split. { unfold with_iv in H3. unfold ready, tag_next. rewrite D. rewrite X in H3. destruct (change o s); exact H3. }
    split. { rewrite <- N, H2, LE, <- X, app_assoc. reflexivity. }
    split; [rewrite LL; exact H5|exact H7].
  - exfalso. destruct H as (H1 & extra & T2 & H2 & H3 & [(t & H4 & H5) | [H4 | H4]]).
    + destruct (Q [] b q t) as [Y|Y]; [reflexivity|exact D|apply in_or_app; right; rewrite H3; apply in_or_app; auto| |];
        cbn [wire after] in Y; rewrite zlen_nil in Y; lia.
    + rewrite N in H4. cbn [wire] in H4. rewrite !zlen_app, LL, zlen_cons in H4. pose proof (zlen_nonneg tail).
      pose proof (zlen_nonneg (wire K o (pnext K o s b) q)). lia.
    + apply H4. rewrite N. cbn [wire]. unfold lead, tag_bytes. rewrite D, <- !app_assoc.
      assert (L : length (tagf K (x_iv s) (x_c s)) = 16%nat) by (pose proof (GC (x_iv s) (x_c s)) as Z0; unfold zlen in Z0; lia).
      rewrite firstn_app, L, Nat.sub_diag, firstn_O, app_nil_r. rewrite <- L. apply firstn_all.
Qed.

Lemma rawt_honest K o r s p n full off :
  0 < so_k o -> good_cipher K -> good_ivs (x_ivs s) -> 0 < n <= so_k o -> n <= zlen p -> rel r s ->
  net_bytes (r_in r) = wire K o s p ++ tail -> quiet_at K o off s p (timeouts off (r_in r)) ->
  exists bs r', readAndDecryptWithTag K o r n full = Ret (bs, r') /\ got_ok K o r s p off n full bs r'.
Proof.
  intros KP GC GI N NP R W Q. pose proof R as (R1 & R2 & R3). unfold readAndDecryptWithTag.
  rewrite (proj2 (Z.leb_gt _ _)) by lia. rewrite (proj2 (Z.ltb_ge _ _)) by lia. cbn [orb]. rewrite R2.
  pose proof (Z.mod_pos_bound (x_pos s) (so_k o) KP) as MB.
  (* after a tag of the writer, data follow *)
  assert (TAG : forall r1 s1 p1 m off1,
    due (so_k o) s1 = true -> good_ivs (x_ivs s1) -> 0 < m <= so_k o -> m <= zlen p1 -> rel r1 s1 ->
    net_bytes (r_in r1) = wire K o s1 p1 ++ tail -> quiet_at K o off1 s1 p1 (timeouts off1 (r_in r1)) ->
    exists r2 bs r3 T1 p2, read_tag K o r1 = (true, r2) /\ readAndDecrypt K r2 m full = Ret (bs, r3) /\ bs <> [] /\
      p1 = bs ++ p2 /\ net_bytes (r_in r3) = wire K o (after K o s1 bs) p2 ++ tail /\ rel r3 (after K o s1 bs) /\ live (r_err r3) /\
      timeouts off1 (r_in r1) = T1 ++ timeouts (off1 + zlen (wire K o s1 bs)) (r_in r3) /\
      (full = true -> T1 = [] -> zlen bs = m) /\ zlen bs <= m /\
      r_starts r3 = r_starts r1 ++ changes K o s1 bs).
  { intros r1 s1 p1 m off1 D1 GI1 M MP R1' W1 Q1. destruct (nonempty p1 ltac:(lia)) as (b & q & Ep). rewrite Ep in *.
    destruct (tag_honest K o r1 s1 b q off1 [] GC GI1 D1 R1' W1 Q1) as (r2 & E2 & R2' & W2 & T2 & S2).
    apply due_true in D1 as (_ & P0 & DM). pose proof (proj2 (due_true (so_k o) s1) (conj KP (conj P0 DM))) as D1.
    destruct (data_honest K o r2 s1 (b :: q) m full (off1 + zlen (lead K o s1))) as (bs & r3 & T1 & E3 & C1 & C2 & C3 & C4 & C5 & C6 & C7).
    { lia. } { right. lia. } { lia. } { exact R2'. } { exact W2. }
    destruct C7 as [(-> & C7 & _) | (NB & p2 & C7 & C8 & C9 & C10)].
    { exfalso. destruct (Q1 [] b q (off1 + zlen (lead K o s1))) as [Y|Y]; [reflexivity|exact D1| | |].
      - rewrite T2, C1, C7. apply in_or_app. left. left. reflexivity.
      - cbn [wire] in Y. rewrite zlen_nil in Y. pose proof (zlen_nonneg (lead K o s1)). lia.
      - cbn [wire after] in Y. rewrite zlen_nil in Y. lia. }
    exists r2, bs, r3, T1, p2. repeat (split; [solve [assumption]|]).
    split. { rewrite T2, C1, C10. f_equal. f_equal. lia. }
    split; [exact C5|]. split; [exact C4|]. rewrite C3, S2. f_equal.
    destruct (after_ready K o s1 _ bs eq_refl NB ltac:(lia)) as (_ & _ & W3). { right. lia. } rewrite W3, D1. reflexivity. }
  destruct (due (so_k o) s) eqn:Du.
  - rewrite (nto_due _ _ Du). rewrite (proj2 (Z.ltb_lt 0 n)) by lia. change (0 <? 0) with false. cbn [obind andb].
    apply due_true in Du as Du'. rewrite R2. destruct Du' as (_ & _ & ->). change (negb (0 =? 0)) with false. cbv iota.
    destruct (TAG r s p n off Du GI N NP R W Q) as (r2 & bs & r3 & T1 & p2 & E1 & E2 & A1 & A2 & A3 & A4 & A5 & A6 & A7 & A8 & A9).
    rewrite E1, zlen_nil, Z.sub_0_r, E2. cbn [obind app]. exists bs, r3. split; [reflexivity|].
    exists p2, T1. repeat (split; [solve [assumption]|]). split; [congruence|]. auto.
  - destruct (nto_not _ _ KP R3 Du) as (N1 & N2). rewrite N1 in *. set (nto := so_k o - x_pos s mod so_k o) in *.
    assert (LN : lead K o s = []) by (unfold lead; rewrite Du; reflexivity).
    assert (RN : ready o s = s) by (unfold ready; rewrite Du; reflexivity).
    assert (DATA : forall m, 0 < m <= nto -> m <= zlen p ->
      exists bs r', readAndDecrypt K r m full = Ret (bs, r') /\ got_ok K o r s p off m full bs r' /\
        (zlen bs = m -> r_err r' = OK)).
    { intros m M MP. destruct (data_honest K o r s p m full off) as (bs & r3 & T1 & E3 & C1 & C2 & C3 & C4 & C5 & C6 & C7).
      { lia. } { right. lia. } { exact R3. } { rewrite RN. exact R. } { rewrite LN, <- W. reflexivity. }
      exists bs, r3. split; [exact E3|]. split; [|exact C6]. rewrite LN, RN in C7. cbn [app] in C7. destruct C7 as [(-> & C7 & C8 & C9) | (NB & p2 & C7 & C8 & C9 & C10)].
      - exists p, T1. cbn [app after wire changes]. rewrite zlen_nil in C1 |- *. rewrite app_nil_r.
        repeat (split; [solve [assumption | reflexivity | symmetry; assumption]|]). split; [intros _; rewrite C7; discriminate|]. auto.
      - exists p2, T1. repeat (split; [solve [assumption]|]). rewrite C10, zlen_nil, Z.add_0_l. split; [exact C1|].
        split; [congruence|]. split; [exact C5|]. split; [|exact C4].
        destruct (after_ready K o s _ bs eq_refl NB R3) as (_ & _ & W3). { right. lia. } rewrite W3, Du, C3, app_nil_r. reflexivity. }
    destruct (Z.ltb_spec nto n) as [L|L].
    + rewrite (proj2 (Z.ltb_lt 0 nto)) by lia.
      destruct (DATA nto ltac:(lia) ltac:(lia)) as (got & r1 & -> & GO & EO). cbn [obind andb].
      destruct GO as (p1 & T1 & A1 & A2 & A3 & A4 & A5 & A6 & A7 & A8 & A9).
      destruct (Z.ltb_spec (zlen got) nto) as [S|S].
      * exists got, r1. split; [reflexivity|]. exists p1, T1. repeat (split; [solve [assumption]|]).
        split; [intros F T0; specialize (A7 F T0); lia|]. split; [exact A8|lia].
      * assert (SL : zlen got = nto) by lia. assert (GN : got <> []) by (intros ->; rewrite zlen_nil in SL; lia).
        assert (Du1 : due (so_k o) (after K o s got) = true).
        { destruct (after_ready K o s _ got eq_refl GN R3) as (_ & W2 & _). { right. lia. }
          rewrite W2, RN. apply due_adv; [exact KP|exact R3|rewrite zlen_xor; lia]. }
        pose proof A3 as (B1 & B2 & B3). apply due_true in Du1 as Du'. rewrite B2. destruct Du' as (_ & _ & DM). rewrite DM.
        change (negb (0 =? 0)) with false. cbv iota.
        assert (LP : zlen p = zlen got + zlen p1) by (rewrite A1, zlen_app; reflexivity).
        destruct (TAG r1 (after K o s got) p1 (n - zlen got) (off + zlen (wire K o s got))) as (r2 & bs & r3 & T3 & p2 & E1 & E2 & C1 & C2 & C3 & C4 & C5 & C6 & C7 & C8 & C9).
        { exact Du1. } { apply good_after. exact GI. } { lia. } { lia. } { exact A3. } { exact A2. }
        { rewrite A1, A5 in Q. apply quiet_step in Q. exact Q. }
        rewrite E1, E2. cbn [obind]. exists (got ++ bs), r3. split; [reflexivity|].
        exists p2, (T1 ++ T3). rewrite wire_app, after_app, changes_app, !zlen_app.
        split; [rewrite A1, C2, app_assoc; reflexivity|]. repeat (split; [solve [assumption]|]).
        split. { rewrite A5, C6, <- app_assoc. f_equal. f_equal. f_equal. lia. }
        split. { intros X. destruct got; [congruence|discriminate]. }
        split. { intros F X. apply app_eq_nil in X as (X1 & X2). specialize (C7 F X2). lia. }
        split; [rewrite C9, A8, app_assoc; reflexivity|lia].
    + rewrite zlen_nil, Z.sub_0_r. destruct (DATA n ltac:(lia) ltac:(lia)) as (bs & r1 & -> & GO & _). cbn [obind app]. eauto.
Qed.

Lemma got_app K o r s p off n full bs1 r1 m bs2 r2 p2 :
  got_ok K o r s p off m full bs1 r1 -> zlen bs1 = m -> bs1 <> [] ->
  p = bs1 ++ p2 ->
  (forall T1, timeouts off (r_in r) = T1 ++ timeouts (off + zlen (wire K o s bs1)) (r_in r1) ->
     got_ok K o r1 (after K o s bs1) p2 (off + zlen (wire K o s bs1)) (n - m) full bs2 r2) ->
  got_ok K o r s p off n full (bs1 ++ bs2) r2.
Proof.
  intros (q & T1 & A1 & A2 & A3 & A4 & A5 & A6 & A7 & A8 & A9) L NE P H. destruct (H T1 A5) as (q2 & T2 & B1 & B2 & B3 & B4 & B5 & B6 & B7 & B8 & B9).
  exists q2, (T1 ++ T2). rewrite wire_app, after_app, changes_app, !zlen_app.
  split; [rewrite P, B1, app_assoc; reflexivity|]. repeat (split; [solve [assumption]|]).
  split. { rewrite A5, B5, <- app_assoc. f_equal. f_equal. f_equal. lia. }
  split. { intros X. destruct bs1; [congruence|discriminate]. }
  split. { intros F X. apply app_eq_nil in X as (X1 & X2). specialize (B7 F X2). lia. }
  split; [rewrite B8, A8, app_assoc; reflexivity|lia].
Qed.
Lemma read_loop_honest K o full fuel : forall r s p n off,
  0 < so_k o -> good_cipher K -> good_ivs (x_ivs s) -> 0 < n <= Z.of_nat fuel -> n <= zlen p -> rel r s ->
  net_bytes (r_in r) = wire K o s p ++ tail -> quiet_at K o off s p (timeouts off (r_in r)) ->
  exists bs r', read_loop fuel K o r n full = Ret (bs, r') /\ got_ok K o r s p off n full bs r'.
Proof.
  induction fuel as [|fuel IH]; intros r s p n off KP GC GI N NP R W Q; [lia|]. cbn [read_loop].
  rewrite (proj2 (Z.leb_gt _ _)) by lia.
  assert (M : 0 < Z.min n (so_k o) <= so_k o) by lia. set (m := Z.min n (so_k o)) in *.
  destruct (rawt_honest K o r s p m full off KP GC GI M ltac:(lia) R W Q) as (bs & r1 & -> & G). cbn [obind].
  pose proof G as (p2 & T1 & A1 & A2 & A3 & A4 & A5 & A6 & A7 & A8 & A9).
  destruct (Z.ltb_spec (zlen bs) m) as [L|L].
  { exists bs, r1. split; [reflexivity|]. exists p2, T1. repeat (split; [solve [assumption]|]).
    split; [intros F T0; specialize (A7 F T0); lia|]. split; [exact A8|lia]. }
  assert (EQ : zlen bs = m) by lia. assert (NE : bs <> []) by (intros ->; rewrite zlen_nil in EQ; lia).
  destruct (Z.eq_dec n (zlen bs)) as [X|X].
  - replace (n - zlen bs) with 0 by lia.
    assert (Z0 : read_loop fuel K o r1 0 full = Ret ([], r1)) by (destruct fuel; reflexivity). rewrite Z0. cbn [obind].
    rewrite app_nil_r. exists bs, r1. split; [reflexivity|]. rewrite X, EQ. exact G.
  - assert (N2 : 0 < n - zlen bs <= Z.of_nat fuel) by lia.
    assert (LP : zlen p = zlen bs + zlen p2) by (rewrite A1, zlen_app; reflexivity).
    destruct (IH r1 (after K o s bs) p2 (n - zlen bs) (off + zlen (wire K o s bs))) as (bs2 & r2 & E2 & G2); auto.
    { apply good_after. exact GI. } { lia. } { rewrite A1, A5 in Q. apply quiet_step in Q. exact Q. }
    rewrite E2. cbn [obind]. exists (bs ++ bs2), r2. split; [reflexivity|].
    eapply got_app; [exact G|exact EQ|exact NE|exact A1|]. intros _ _. rewrite <- EQ. exact G2.
Qed.
Lemma sock_read_call_honest K o r s p n full off :
  0 <= so_k o -> good_cipher K -> good_ivs (x_ivs s) -> 0 < n <= zlen p -> live (r_err r) -> rel r s ->
  net_bytes (r_in r) = wire K o s p ++ tail -> quiet_at K o off s p (timeouts off (r_in r)) ->
  exists bs r', sock_read_call K o r n full = Ret (bs, r') /\ got_ok K o r s p off n full bs r'.
Proof.
  intros KP GC GI N LV R W Q. unfold sock_read_call. rewrite (proj2 (Z.leb_gt _ _)) by lia.
  assert (X : negb (r_err r =? OK) && negb (r_err r =? WDT_TIMEOUT) = false).
  { destruct LV as [-> | ->]; reflexivity. }
  rewrite X. set (r0 := r_set r OK (r_in r)). assert (R0 : rel r0 s) by exact R.
  destruct (Z.leb_spec (so_k o) 0) as [K0|K0].
  - assert (Du : due (so_k o) s = false). { destruct (due (so_k o) s) eqn:Du; [|reflexivity]. apply due_true in Du. lia. }
    assert (LN : lead K o s = []) by (unfold lead; rewrite Du; reflexivity).
    assert (RN : ready o s = s) by (unfold ready; rewrite Du; reflexivity). pose proof R as (_ & _ & R3).
    destruct (data_honest K o r0 s p n full off) as (bs & r3 & T1 & E3 & C1 & C2 & C3 & C4 & C5 & C6 & C7).
    { lia. } { left. lia. } { exact R3. } { rewrite RN. exact R. } { rewrite LN, <- W. reflexivity. }
    exists bs, r3. split; [exact E3|]. rewrite LN, RN in C7. cbn [app] in C7. destruct C7 as [(-> & C7 & C8 & C9) | (NB & p2 & C7 & C8 & C9 & C10)].
    + exists p, T1. cbn [app after wire changes]. rewrite zlen_nil in C1 |- *. rewrite app_nil_r.
      repeat (split; [solve [assumption | reflexivity | symmetry; assumption]|]). split; [intros _; rewrite C7; discriminate|]. auto.
    + exists p2, T1. repeat (split; [solve [assumption]|]). rewrite C10, zlen_nil, Z.add_0_l. split; [exact C1|].
      split; [congruence|]. split; [exact C5|]. split; [|exact C4].
      destruct (after_ready K o s _ bs eq_refl NB R3) as (_ & _ & W3). { left. lia. } rewrite W3, Du, C3, app_nil_r. reflexivity.
  - destruct (read_loop_honest K o full (Z.to_nat n) r0 s p n off) as (bs & r' & E & G); auto; try lia. eauto.
Qed.
Lemma drain_ok K o reqs : forall r s p off,
  0 <= so_k o -> good_cipher K -> good_ivs (x_ivs s) -> Forall (fun q => 0 < fst q) reqs -> live (r_err r) -> rel r s ->
  net_bytes (r_in r) = wire K o s p ++ tail -> quiet_at K o off s p (timeouts off (r_in r)) ->
  (length p + length (timeouts off (r_in r)) <= length reqs)%nat ->
  exists r', drain K o r reqs (zlen p) = Ret (p, r') /\ live (r_err r') /\ rel r' (after K o s p) /\
    net_bytes (r_in r') = tail /\ r_starts r' = r_starts r ++ changes K o s p /\
    (timeouts off (r_in r) = [] -> exists off', timeouts off' (r_in r') = []).
Proof.
  induction reqs as [|[n full] reqs IH]; intros r s p off KP GC GI F LV R W Q L; cbn [length] in L.
  - destruct p; [|cbn in L; lia]. exists r. cbn. rewrite app_nil_r. eauto 10.
  - inversion F as [|? ? P0 F']; subst. cbn [fst] in P0. cbn [drain].
    destruct (Z.leb_spec (zlen p) 0) as [Z0|Z0].
    { assert (p = []) as -> by (apply zlen_0; pose proof (zlen_nonneg p); lia). exists r. cbn. rewrite app_nil_r. eauto 10. }
    destruct (sock_read_call_honest K o r s p (Z.min n (zlen p)) full off KP GC GI ltac:(lia) LV R W Q) as (bs & r1 & -> & G). cbn [obind].
    destruct G as (p2 & T1 & A1 & A2 & A3 & A4 & A5 & A6 & A7 & A8 & A9).
    replace (zlen p - zlen bs) with (zlen p2) by (rewrite A1, zlen_app; lia).
    destruct (IH r1 (after K o s bs) p2 (off + zlen (wire K o s bs))) as (r2 & -> & B1 & B2 & B3 & B4 & B5); auto.
    + apply good_after. exact GI.
    + rewrite A1, A5 in Q. apply quiet_step in Q. exact Q.
    + rewrite A5, A1, !app_length in L. destruct bs; [|cbn [length] in L; lia]. specialize (A6 eq_refl). destruct T1; [congruence|]. cbn [length] in L. lia.
    + cbn [obind]. exists r2. rewrite A1, changes_app, after_app, B4, A8, app_assoc. repeat (split; [solve [auto]|]).
      intros X. apply B5. rewrite A5 in X. apply app_eq_nil in X. apply X.
Qed.

End Tail.
