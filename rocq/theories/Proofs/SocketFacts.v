(** Lemmas about the encrypted stream (Model/Socket.v). *)
From Verif Require Export Spec.SocketSpec.
From Verif Require Import Proofs.BytesFacts.

Definition adv (s : pst) (x : list Z) : pst :=
  {| x_pos := x_pos s + zlen x; x_iv := x_iv s; x_c := x_c s ++ x; x_ivs := x_ivs s |}.

Lemma zlen_xor K iv bs : forall i, zlen (xor_from K iv i bs) = zlen bs.
Proof. induction bs as [|b r IH]; intros i; [reflexivity|]. cbn [xor_from]. rewrite !zlen_cons, IH. reflexivity. Qed.
Lemma xor_inv K iv bs : forall i, xor_from K iv i (xor_from K iv i bs) = bs.
Proof.
  induction bs as [|b r IH]; intros i; [reflexivity|]. cbn [xor_from]. rewrite IH. f_equal.
  rewrite Z.lxor_assoc, Z.lxor_nilpotent, Z.lxor_0_r. reflexivity.
Qed.
Lemma xor_app K iv a b : forall i, xor_from K iv i (a ++ b) = xor_from K iv i a ++ xor_from K iv (i + zlen a) b.
Proof.
  induction a as [|x a IH]; intros i; cbn [xor_from app].
  - rewrite zlen_nil, Z.add_0_r. reflexivity.
  - rewrite IH, zlen_cons, Z.add_assoc. reflexivity.
Qed.
Lemma adv_nil s : adv s [] = s.
Proof. unfold adv. rewrite zlen_nil, Z.add_0_r, app_nil_r. destruct s; reflexivity. Qed.
Lemma adv_adv s x y : adv (adv s x) y = adv s (x ++ y).
Proof. unfold adv. cbn [x_pos x_iv x_c x_ivs]. rewrite zlen_app, Z.add_assoc, app_assoc. reflexivity. Qed.
Lemma byte_next_adv s x : byte_next s x = adv s [x].
Proof. reflexivity. Qed.

Lemma wire_app K o p : forall s q, wire K o s (p ++ q) = wire K o s p ++ wire K o (after K o s p) q.
Proof. induction p as [|b p IH]; intros s q; cbn [wire after app]; [reflexivity|]. rewrite IH, <- app_assoc. reflexivity. Qed.
Lemma after_app K o p : forall s q, after K o s (p ++ q) = after K o (after K o s p) q.
Proof. induction p as [|b p IH]; intros s q; cbn [after app]; [reflexivity|]. apply IH. Qed.
Lemma changes_app K o p : forall s q, changes K o s (p ++ q) = changes K o s p ++ changes K o (after K o s p) q.
Proof. induction p as [|b p IH]; intros s q; cbn [changes after app]; [reflexivity|]. rewrite IH, <- app_assoc. reflexivity. Qed.
Lemma pos_ready o s : x_pos (ready o s) = x_pos s.
Proof. unfold ready, tag_next. destruct (due (so_k o) s), (change o s); reflexivity. Qed.
Lemma pos_after K o p : forall s, x_pos (after K o s p) = x_pos s + zlen p.
Proof.
  induction p as [|b p IH]; intros s; cbn [after]; [rewrite zlen_nil; lia|].
  rewrite IH, zlen_cons. unfold pnext, byte_next. cbn [x_pos]. rewrite pos_ready. lia.
Qed.

(** ** Positions *)
Lemma due_true k s : due k s = true <-> 0 < k /\ 0 < x_pos s /\ x_pos s mod k = 0.
Proof. unfold due. rewrite !andb_true_iff, !Z.ltb_lt, Z.eqb_eq. tauto. Qed.
Lemma nto_due k s : due k s = true -> computeNextTagOffset (x_pos s) k = 0.
Proof.
  rewrite due_true. intros (A & B & C). unfold computeNextTagOffset.
  rewrite (proj2 (Z.eqb_neq _ _)) by lia. rewrite C, Z.sub_0_r, Z.eqb_refl. reflexivity.
Qed.
Lemma nto_not k s :
  0 < k -> 0 <= x_pos s -> due k s = false ->
  computeNextTagOffset (x_pos s) k = k - x_pos s mod k /\ 0 < computeNextTagOffset (x_pos s) k.
Proof.
  intros A B C. unfold computeNextTagOffset. pose proof (Z.mod_pos_bound (x_pos s) k A) as D.
  destruct (Z.eqb_spec (x_pos s) 0) as [E|E].
  - rewrite E, Z.mod_0_l by lia. lia.
  - assert (F : x_pos s mod k <> 0).
    { intros F. assert (G : due k s = true) by (rewrite due_true; lia). congruence. }
    rewrite (proj2 (Z.eqb_neq _ _)) by lia. lia.
Qed.
Lemma due_adv k s x : 0 < k -> 0 <= x_pos s -> x_pos s mod k + zlen x = k -> due k (adv s x) = true.
Proof.
  intros A B C. pose proof (Z.mod_pos_bound (x_pos s) k A) as D. pose proof (Z.div_mod (x_pos s) k ltac:(lia)) as E.
  rewrite due_true. cbn [adv x_pos]. repeat split; try lia.
  replace (x_pos s + zlen x) with ((x_pos s / k + 1) * k) by nia. apply Z.mod_mul. lia.
Qed.
Lemma mod_adv k p n : 0 < k -> 0 <= p -> 0 <= n -> p mod k + n < k -> (p + n) mod k = p mod k + n.
Proof.
  intros A B N C. pose proof (Z.mod_pos_bound p k A) as D. rewrite <- Z.add_mod_idemp_l by lia. apply Z.mod_small. lia.
Qed.
Lemma not_due_adv k s x :
  0 <= x_pos s -> 0 < zlen x -> (k <= 0 \/ x_pos s mod k + zlen x < k) -> due k (adv s x) = false.
Proof.
  intros B N C. destruct (due k (adv s x)) eqn:E; [|reflexivity]. rewrite due_true in E. cbn [adv x_pos] in E.
  destruct E as (A & _ & E). destruct C as [C|C]; [lia|].
  pose proof (Z.mod_pos_bound (x_pos s) k A). rewrite mod_adv in E; lia.
Qed.

(** A run of bytes without a tag inside. *)
Lemma wire_run K o : forall r s b,
  0 <= x_pos s -> (so_k o <= 0 \/ x_pos s mod so_k o + zlen (b :: r) <= so_k o) ->
  let s1 := ready o s in
  let x := xor_from K (x_iv s1) (zlen (x_c s1)) (b :: r) in
  wire K o s (b :: r) = lead K o s ++ x /\ after K o s (b :: r) = adv s1 x /\
  changes K o s (b :: r) = if due (so_k o) s && change o s then [x_pos s] else [].
Proof.
  induction r as [|c r IH]; intros s b P H s1 x.
  - subst x. cbn [wire after changes]. rewrite app_nil_r. repeat split; reflexivity.
  - assert (B : 0 <= x_pos (pnext K o s b)) by (unfold pnext, byte_next; cbn [x_pos]; rewrite pos_ready; lia).
    assert (C : so_k o <= 0 \/ x_pos (pnext K o s b) mod so_k o + zlen (c :: r) <= so_k o).
    { destruct H as [H|H]; [left; exact H|]. unfold pnext, byte_next; cbn [x_pos]. rewrite pos_ready.
      destruct (Z_le_gt_dec (so_k o) 0); [left; lia|right]. rewrite !zlen_cons in H. pose proof (zlen_nonneg r).
      rewrite mod_adv by lia. rewrite zlen_cons. lia. }
    assert (N : due (so_k o) (pnext K o s b) = false).
    { unfold pnext. rewrite byte_next_adv. apply not_due_adv; rewrite ?pos_ready; [lia|reflexivity|].
      destruct H as [H|H]; [left; exact H|right]. rewrite !zlen_cons, zlen_nil in *. pose proof (zlen_nonneg r). lia. }
    destruct (IH _ c B C) as (W & A & G). unfold lead, ready in W, A. rewrite N in W, A, G. cbn [andb] in G.
    change (wire K o s (b :: c :: r)) with (lead K o s ++ cbyte K (ready o s) b :: wire K o (pnext K o s b) (c :: r)).
    change (after K o s (b :: c :: r)) with (after K o (pnext K o s b) (c :: r)).
    change (changes K o s (b :: c :: r))
      with ((if due (so_k o) s && change o s then [x_pos s] else []) ++ changes K o (pnext K o s b) (c :: r)).
    rewrite W, A, G, app_nil_r.
    assert (X : x = cbyte K s1 b :: xor_from K (x_iv (pnext K o s b)) (zlen (x_c (pnext K o s b))) (c :: r)).
    { subst x. unfold pnext, byte_next. cbn [x_iv x_c]. rewrite zlen_app, zlen_cons, zlen_nil, Z.add_0_r. reflexivity. }
    rewrite X. repeat split. unfold pnext. rewrite byte_next_adv, adv_adv. reflexivity.
Qed.

(** ** Writing *)
Definition wrel (o : sopts) (w : wsock) (s : pst) : Prop :=
  w_enc w = {| cr_iv := x_iv s; cr_c := x_c s |} /\ (0 < so_k o -> w_total w = x_pos s) /\ w_ivs w = x_ivs s /\
  w_err w = OK /\ 0 <= x_pos s.
(** The result of writing the wire bytes [x] and getting to [s']. *)
Definition wrote (o : sopts) (w : wsock) (x : list Z) (cs : list Z) (s' : pst) (res : outcome (bool * wsock)) : Prop :=
  exists ok w', res = Ret (ok, w') /\
    if ok then wrel o w' s' /\ w_out w' = w_out w ++ x /\ w_starts w' = w_starts w ++ cs
    else w_err w' <> OK /\ exists rest, w_out w ++ x = w_out w' ++ rest.

Lemma writeInternal_ok w bs :
  exists ok w', writeInternal w bs = (ok, w') /\
    w_enc w' = w_enc w /\ w_total w' = w_total w /\ w_ivs w' = w_ivs w /\ w_starts w' = w_starts w /\
    (if ok then w_err w' = w_err w /\ w_out w' = w_out w ++ bs
     else w_err w' <> OK /\ exists rest, w_out w ++ bs = w_out w' ++ rest).
Proof.
  unfold writeInternal. destruct (w_acc w) as [|a r]; [|destruct (zlen bs <=? a)];
    eexists _, _; (split; [reflexivity|]); cbn; repeat split; try discriminate.
  exists (skipn (Z.to_nat a) bs). rewrite <- app_assoc, firstn_skipn. reflexivity.
Qed.
Lemma encryptAndWrite_ok K o w s b r add :
  wrel o w s -> add = zlen (b :: r) ->
  let x := xor_from K (x_iv s) (zlen (x_c s)) (b :: r) in
  wrote o w x [] (adv s x)
    (obind (encryptAndWrite K w (b :: r)) (fun y =>
     match y with (true, w2) => Ret (true, w_add w2 add) | (false, w2) => Ret (false, w2) end)).
Proof.
  intros (A & B & C & D & E) -> x. unfold encryptAndWrite. pose proof (zlen_nonneg r).
  rewrite (proj2 (Z.leb_gt _ _)) by (rewrite zlen_cons; lia). unfold encrypt. rewrite A. cbn [cr_iv cr_c]. fold x.
  match goal with |- context [writeInternal ?u x] => destruct (writeInternal_ok u x) as (ok & w' & -> & F & G & H1 & I & J) end.
  cbn [w_enc w_total w_ivs w_starts w_err w_out] in *. cbn [obind]. destruct ok.
  - eexists _, _; split; [reflexivity|]. unfold wrel, w_add. cbn [w_enc w_total w_ivs w_starts w_err w_out adv x_iv x_c x_pos x_ivs].
    destruct J as (J1 & J2). rewrite app_nil_r. pose proof (zlen_nonneg x).
    assert (Lx : zlen x = zlen (b :: r)) by (subst x; apply zlen_xor).
    repeat split; try assumption; try congruence.
    + intros K0. rewrite G, (B K0), Lx. reflexivity.
    + lia.
  - eexists _, _; split; [reflexivity|]. exact J.
Qed.
Lemma wrote_app o w x1 x2 c1 c2 s1 s2 res1 f :
  wrote o w x1 c1 s1 res1 ->
  (forall w1, wrel o w1 s1 -> wrote o w1 x2 c2 s2 (f (true, w1))) ->
  (forall w1, f (false, w1) = Ret (false, w1)) ->
  wrote o w (x1 ++ x2) (c1 ++ c2) s2 (obind res1 f).
Proof.
  intros (ok & w1 & -> & A) B C. cbn [obind]. destruct ok.
  - destruct A as (A1 & A2 & A3). destruct (B w1 A1) as (ok & w2 & -> & D). exists ok, w2. split; [reflexivity|]. destruct ok.
    + destruct D as (D1 & D2 & D3). rewrite D2, D3, A2, A3, !app_assoc. auto.
    + destruct D as (D1 & rest & D2). split; [exact D1|]. exists rest. rewrite app_assoc, <- A2. exact D2.
  - rewrite C. exists false, w1. split; [reflexivity|]. destruct A as (A1 & rest & A2). split; [exact A1|].
    exists (rest ++ x2). rewrite !app_assoc. f_equal. exact A2.
Qed.

Lemma firstn_skipn_len {A} (l : list A) n : 0 <= n <= zlen l -> zlen (firstn (Z.to_nat n) l) = n.
Proof. intros H. rewrite zlen_firstn; lia. Qed.
Lemma nonempty {A} (l : list A) : 0 < zlen l -> exists a r, l = a :: r.
Proof. intros H. destruct l; [unfold zlen in H; cbn in H; lia|eauto]. Qed.

Lemma tag_write_ok K o w s (r : list Z) (f : wsock -> outcome (bool * wsock)) cs x s' :
  wrel o w s -> 0 < so_k o ->
  (forall w3, wrel o w3 (tag_next o s) -> wrote o w3 x cs s' (f w3)) ->
  wrote o w (tag_bytes K o s ++ x) ((if change o s then [x_pos s] else []) ++ cs) s'
    (match writeInternal w (tagf K (cr_iv (w_enc w)) (cr_c (w_enc w))) with
     | (false, w2) => Ret (false, w2)
     | (true, w2) =>
         match checkAndChangeEncryptionIv o w2 with
         | (false, w3) =>
             Ret (false, {| w_enc := w_enc w3; w_total := w_total w3; w_err := ENCRYPTION_ERROR; w_ivs := w_ivs w3;
                            w_acc := w_acc w3; w_out := w_out w3; w_starts := w_starts w3 |})
         | (true, w3) => f w3
         end
     end).
Proof.
  intros (A & B & C & D & E) KP F. rewrite A. cbn [cr_iv cr_c].
  destruct (writeInternal_ok w (tagf K (x_iv s) (x_c s))) as (ok & w2 & -> & G1 & G2 & G3 & G4 & G5).
  unfold tag_bytes. destruct ok.
  - destruct G5 as (G5 & G6). unfold checkAndChangeEncryptionIv. rewrite G1, A. cbn [cr_c].
    unfold tag_next in F.
    assert (X : change o s = false ->
      wrote o w ((tagf K (x_iv s) (x_c s) ++ []) ++ x) ([] ++ cs) s' (f w2)).
    { intros N. rewrite N in F. destruct (F w2) as (ok & w3 & -> & H).
      { repeat split; try congruence; try assumption. rewrite G2. exact B. }
      exists ok, w3. split; [reflexivity|]. rewrite app_nil_r. cbn [app]. destruct ok.
      - destruct H as (H1 & H2 & H3). rewrite H2, H3, G6, G4, app_assoc. auto.
      - destruct H as (H1 & rest & H2). split; [exact H1|]. exists rest. rewrite app_assoc, <- G6. exact H2. }
    unfold change in *. destruct (so_lim o =? 0) eqn:L0; [cbn [negb andb]; apply X; reflexivity|].
    destruct (Z.leb_spec (zlen (x_c s) + so_k o) (so_lim o)) as [L|L].
    { rewrite (proj2 (Z.ltb_ge _ _)) in * by lia. cbn [negb andb]. apply X. reflexivity. }
    clear X. rewrite (proj2 (Z.ltb_lt _ _)) in * by lia. cbn [negb andb] in *. rewrite G3, C.
    match goal with |- context [writeInternal ?u ?y] => destruct (writeInternal_ok u y) as (ok & w3 & -> & H1 & H2 & H3 & H4 & H5) end.
    cbn [w_enc w_total w_ivs w_starts w_err w_out] in *. destruct ok.
    + destruct H5 as (H5 & H6). destruct (F w3) as (ok & w4 & -> & I).
      { repeat split; cbn [x_iv x_c x_pos x_ivs]; try congruence; try assumption. rewrite H2, G2. exact B. }
      exists ok, w4. split; [reflexivity|]. destruct ok.
      * destruct I as (I1 & I2 & I3). rewrite I2, I3, H6, H4, G6, G4, G2, (B KP), !app_assoc. auto.
      * destruct I as (I1 & rest & I2). split; [exact I1|]. exists rest. rewrite !app_assoc, <- G6, <- H6. exact I2.
    + exists false. eexists. split; [reflexivity|]. cbn [w_err w_out]. split; [discriminate|].
      destruct H5 as (_ & rest & H5). exists (rest ++ x). rewrite !app_assoc, <- G6. f_equal. exact H5.
  - exists false, w2. split; [reflexivity|]. destruct G5 as (G5 & rest & G6). split; [exact G5|].
    exists (rest ++ (if change o s then hd iv0 (x_ivs s) else []) ++ x). rewrite !app_assoc, <- G6. reflexivity.
Qed.

Lemma ewt_ok K o w s bs :
  0 < so_k o -> 0 < zlen bs <= so_k o -> wrel o w s ->
  wrote o w (wire K o s bs) (changes K o s bs) (after K o s bs) (encryptAndWriteWithTag K o w bs).
Proof.
  intros KP L R. pose proof R as (A & B & C & D & E). unfold encryptAndWriteWithTag.
  rewrite (proj2 (Z.leb_gt _ _)) by lia. rewrite (proj2 (Z.ltb_ge _ _)) by lia. cbn [orb].
  rewrite (B KP).
  assert (Rest : forall w3 s3 r, wrel o w3 s3 -> 0 < zlen r ->
    wrote o w3 (xor_from K (x_iv s3) (zlen (x_c s3)) r) [] (adv s3 (xor_from K (x_iv s3) (zlen (x_c s3)) r))
      (obind (encryptAndWrite K w3 r) (fun x => match x with (true, w2) => Ret (true, w_add w2 (zlen r)) | (false, w2) => Ret (false, w2) end))).
  { intros w3 s3 r R3 N. destruct (nonempty _ N) as (b & r' & ->). apply encryptAndWrite_ok; [exact R3|reflexivity]. }
  destruct (due (so_k o) s) eqn:Du.
  - rewrite (nto_due _ _ Du). rewrite (proj2 (Z.ltb_lt _ _)) by lia.
    change (0 <? 0) with false. cbn [obind].
    rewrite (B KP). apply due_true in Du as Du'. destruct Du' as (_ & _ & Du').
    rewrite Du', Z.eqb_refl. cbn [negb]. change (skipn (Z.to_nat (Z.max 0 0)) bs) with bs.
    destruct (nonempty bs ltac:(lia)) as (b & r & ->).
    destruct (wire_run K o r s b E) as (W1 & W2 & W3); [right; lia|].
    unfold lead, ready in W1, W2. rewrite Du in W1, W2, W3. cbn [andb] in W3. rewrite W1, W2, W3.
    rewrite <- (app_nil_r (if change o s then _ else _)).
    apply tag_write_ok; [exact bs || exact []|exact R|exact KP|]. intros w3 R3. apply Rest; [exact R3|lia].
  - destruct (nto_not _ _ KP E Du) as (N1 & N2). pose proof (Z.mod_pos_bound (x_pos s) (so_k o) KP) as MB.
    rewrite N1 in *. set (nto := so_k o - x_pos s mod so_k o) in *.
    destruct (Z.ltb_spec nto (zlen bs)) as [H|H].
    + rewrite (proj2 (Z.ltb_lt 0 nto)) by lia.
      set (p1 := firstn (Z.to_nat nto) bs). rewrite Z.max_r by lia. set (p2 := skipn (Z.to_nat nto) bs).
      assert (Eb : bs = p1 ++ p2) by (symmetry; apply firstn_skipn).
      assert (L1 : zlen p1 = nto) by (apply firstn_skipn_len; lia).
      assert (L2 : 0 < zlen p2) by (unfold p2; rewrite zlen_skipn; lia).
      assert (P1 : exists b r, p1 = b :: r) by (apply nonempty; lia). destruct P1 as (b & r & P1).
      assert (P2 : exists b r, p2 = b :: r) by (apply nonempty; lia). destruct P2 as (c & q & P2).
      destruct (wire_run K o r s b E) as (W1 & W2 & W3); [right; rewrite <- P1; lia|].
      unfold lead, ready in W1, W2. rewrite Du in W1, W2, W3. cbn [andb app] in W1, W3. rewrite <- P1 in W1, W2, W3.
      set (s1 := after K o s p1) in *. set (x1 := xor_from K (x_iv s) (zlen (x_c s)) p1) in *.
      assert (L3 : zlen x1 = nto) by (unfold x1; rewrite zlen_xor; exact L1).
      assert (Du1 : due (so_k o) s1 = true) by (rewrite W2; apply due_adv; lia).
      assert (E1 : 0 <= x_pos s1) by (rewrite W2; cbn; lia).
      pose proof Du1 as Du1'. apply due_true in Du1' as (_ & _ & Du1').
      destruct (wire_run K o q s1 c E1) as (V1 & V2 & V3).
      { right. rewrite <- P2, Du1'. rewrite Eb, zlen_app in L. lia. }
      unfold lead, ready in V1, V2. rewrite Du1 in V1, V2, V3. cbn [andb] in V3. rewrite <- P2 in V1, V2, V3.
      rewrite Eb, wire_app, changes_app, after_app. fold s1. rewrite W1.
      apply (wrote_app o w x1 _ _ _ s1).
      * rewrite W3, W2. unfold x1. rewrite P1. apply encryptAndWrite_ok; [exact R|rewrite <- P1; lia].
      * intros w1 R1. pose proof R1 as (_ & B1 & _). rewrite (B1 KP), Du1', Z.eqb_refl. cbn [negb].
        rewrite V1, V2, V3, <- (app_nil_r (if change o s1 then _ else _)).
        apply tag_write_ok; [exact []|exact R1|exact KP|]. intros w3 R3. apply Rest; [exact R3|lia].
      * reflexivity.
    + destruct (nonempty bs ltac:(lia)) as (b & r & Eb).
      destruct (wire_run K o r s b E) as (W1 & W2 & W3); [right; rewrite <- Eb; lia|].
      unfold lead, ready in W1, W2. rewrite Du in W1, W2, W3. cbn [andb app] in W1, W3. rewrite <- Eb in W1, W2, W3.
      rewrite W1, W2, W3. apply Rest; [exact R|lia].
Qed.

Lemma write_loop_ok K o fuel : forall w s bs,
  0 < so_k o -> (length bs <= fuel)%nat -> wrel o w s ->
  wrote o w (wire K o s bs) (changes K o s bs) (after K o s bs) (write_loop fuel K o w bs).
Proof.
  induction fuel as [|n IH]; intros w s bs KP L R.
  - destruct bs; [|cbn in L; lia]. exists true, w. split; [reflexivity|]. cbn. rewrite !app_nil_r. auto.
  - destruct bs as [|b bs].
    { exists true, w. split; [reflexivity|]. cbn. rewrite !app_nil_r. auto. }
    cbn [write_loop]. set (B := b :: bs) in *.
    assert (P : 0 < zlen B) by (unfold B; rewrite zlen_cons; pose proof (zlen_nonneg bs); lia).
    set (m := Z.min (zlen B) (so_k o)). assert (M : 0 < m <= zlen B) by (unfold m; lia).
    pose proof (firstn_skipn_len B m ltac:(lia)) as L1.
    rewrite <- (firstn_skipn (Z.to_nat m) B) at 1 2 3. rewrite wire_app, changes_app, after_app.
    apply wrote_app with (s1 := after K o s (firstn (Z.to_nat m) B)).
    + apply ewt_ok; [exact KP|rewrite L1; unfold m in *; lia|exact R].
    + intros w1 R1. apply IH; [exact KP| |exact R1]. rewrite skipn_length. lia.
    + reflexivity.
Qed.
Lemma sock_write_ok K o w s bs :
  0 < zlen bs -> wrel o w s ->
  wrote o w (wire K o s bs) (changes K o s bs) (after K o s bs) (sock_write K o w bs).
Proof.
  intros L R. unfold sock_write. rewrite (proj2 (Z.leb_gt _ _)) by lia.
  pose proof R as (A & B & C & D & E). rewrite D. change (negb (OK =? OK)) with false. cbv iota.
  destruct (Z.leb_spec (so_k o) 0) as [Kz|Kz]; [|apply write_loop_ok; auto].
  destruct (nonempty _ L) as (b & r & ->). unfold encryptAndWrite. rewrite (proj2 (Z.leb_gt _ _)) by lia.
  destruct (wire_run K o r s b E) as (W1 & W2 & W3); [left; exact Kz|].
  assert (Du : due (so_k o) s = false).
  { destruct (due (so_k o) s) eqn:Du; [|reflexivity]. apply due_true in Du. lia. }
  unfold lead, ready in W1, W2. rewrite Du in W1, W2, W3. cbn [andb app] in W1, W3. rewrite W1, W2, W3.
  unfold encrypt. rewrite A. cbn [cr_iv cr_c]. set (x := xor_from K (x_iv s) (zlen (x_c s)) (b :: r)).
  match goal with |- context [writeInternal ?u x] => destruct (writeInternal_ok u x) as (ok & w' & -> & F & G & H1 & I & J) end.
  cbn [w_enc w_total w_ivs w_starts w_err w_out] in *. eexists _, _; split; [reflexivity|]. destruct ok; [|exact J].
  destruct J as (J1 & J2). rewrite app_nil_r. pose proof (zlen_nonneg x). unfold wrel.
  cbn [adv x_iv x_c x_pos x_ivs]. repeat split; try assumption; try congruence; lia.
Qed.
Lemma sock_writes_ok K o l : forall w s,
  Forall (fun bs => 0 < zlen bs) l -> wrel o w s ->
  wrote o w (wire K o s (concat l)) (changes K o s (concat l)) (after K o s (concat l)) (sock_writes K o w l).
Proof.
  induction l as [|bs l IH]; intros w s F R; cbn [concat sock_writes].
  - exists true, w. split; [reflexivity|]. cbn. rewrite !app_nil_r. auto.
  - inversion F as [|? ? P F']; subst. rewrite wire_app, changes_app, after_app.
    apply wrote_app with (s1 := after K o s bs); [apply sock_write_ok; auto|intros w1 R1; apply IH; auto|reflexivity].
Qed.
Lemma wrel0 o iv ivs acc : wrel o (wsock0 iv ivs acc) (pst0 iv ivs).
Proof. repeat split; cbn; try reflexivity. Qed.

(** ** Reading *)
Lemma io_read_ok l n full bs t l' off :
  0 < n -> io_read l n full = (bs, t, l') ->
  net_bytes l = bs ++ net_bytes l' /\ zlen bs <= n /\
  timeouts off l = (if t then [off + zlen bs] else []) ++ timeouts (off + zlen bs) l' /\
  (t = false -> (full = true \/ bs = []) -> zlen bs < n -> net_bytes l' = []) /\
  (t = true -> zlen bs < n).
Proof.
  revert n bs t l' off. induction l as [|[b|] l IH]; intros n bs t l' off N H; cbn [io_read] in H.
  - injection H as <- <- <-. cbn. repeat split; try lia; discriminate.
  - destruct b as [|c b].
    + destruct (IH _ _ _ _ off N H) as (A & B & C & D). cbn [net_bytes timeouts app].
      rewrite Z.add_0_r. auto.
    + set (B := c :: b) in *. assert (P : 0 < zlen B) by (unfold B; rewrite zlen_cons; pose proof (zlen_nonneg b); lia).
      destruct (Z.ltb_spec n (zlen B)) as [L|L].
      { injection H as <- <- <-. cbn [net_bytes timeouts app]. rewrite firstn_skipn_len, zlen_skipn by lia.
        rewrite app_assoc, firstn_skipn. repeat split; try lia; try discriminate. f_equal. lia. }
      destruct (Z.eqb_spec n (zlen B)) as [E|E].
      { injection H as <- <- <-. cbn [net_bytes timeouts app]. repeat split; try lia; discriminate. }
      destruct full.
      * destruct (io_read l (n - zlen B) true) as [[more t'] r'] eqn:R. injection H as <- <- <-.
        assert (N' : 0 < n - zlen B) by lia. change (c :: b ++ more) with (B ++ more).
        destruct (IH _ _ _ _ (off + zlen B) N' R) as (A1 & A2 & A3 & A4 & A5).
        cbn [net_bytes timeouts]. rewrite zlen_app, A1, A3, app_assoc.
        split; [reflexivity|]. split; [lia|]. split; [rewrite Z.add_assoc; reflexivity|].
        split; [intros T _ Z; apply A4; auto; lia|intros T; specialize (A5 T); lia].
      * injection H as <- <- <-. cbn [net_bytes timeouts app]. repeat split; try lia; try discriminate.
        intros _ [X|X]; [discriminate|]. unfold B in X. discriminate.
  - injection H as <- <- <-. cbn [net_bytes timeouts app]. rewrite zlen_nil, Z.add_0_r. repeat split; try lia; discriminate.
Qed.
