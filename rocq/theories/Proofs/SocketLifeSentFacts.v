(** What a socket puts on the wire (Model/SocketLife.v), and what the peer makes of it. *)
From Verif Require Import Model.Uri Proofs.BytesFacts Proofs.VarintFacts Proofs.ProtocolCodecFacts Proofs.SocketIvFacts Proofs.SocketLifeFacts.
From Verif Require Export Spec.SocketLifeSpec.
From Coq Require Import Lia.

Lemma settings_eq ty iv k : encrypting ty -> zlen iv = 16 -> ENCRYPTION_CMD :: enc_settings_bytes ty iv k = settings ty iv k.
Proof.
  intros T I. unfold settings, enc_settings_bytes, encodeString_str. rewrite I. destruct T as [-> | ->]; reflexivity.
Qed.
Lemma settings_len ty iv k : zlen iv = 16 -> zlen (settings ty iv k) = 23.
Proof. intros I. unfold settings. rewrite !zlen_cons, zlen_app, I. unfold zlen. rewrite le_bytes_len. reflexivity. Qed.
Lemma says_settings ty iv k last : encrypting ty -> zlen iv = 16 -> in_nat31 k -> says (tl (settings ty iv k)) last ty iv k.
Proof.
  intros T I Kn. pose proof (settings_eq ty iv k T I) as E. unfold says. rewrite <- E. cbn [tl].
  assert (Hty : in_nat63 ty) by (destruct T as [-> | ->]; split; reflexivity || discriminate).
  assert (Hi : zlen iv < 2 ^ 63) by (rewrite I; reflexivity).
  pose proof (settings_len ty iv k I) as L. rewrite <- E, zlen_cons in L.
  assert (M : makeByteRange (enc_settings_bytes ty iv k ++ [last]) kEncryptionCmdLen 0 = Ret (enc_settings_bytes ty iv k ++ [last])).
  { unfold makeByteRange, kEncryptionCmdLen, kAESBlockSize. change (0 <? 0) with false. cbn [Z.ltb].
    assert (L2 : zlen (enc_settings_bytes ty iv k ++ [last]) = 23) by (rewrite zlen_app; change (zlen [last]) with 1; lia).
    change (16 + 7 <? 0) with false. change (1 + 1 + 1 + 16 + 4 <? 0) with false. rewrite L2. cbn -[slice enc_settings_bytes].
    f_equal. unfold slice. cbn [Z.to_nat]. rewrite skipn_O. apply firstn_all2. unfold zlen in L2. lia. }
  eexists. unfold decode_at. rewrite M. cbn [obind]. rewrite (Decodes_EncSettings ty iv k Hty Hi Kn [last]). reflexivity.
Qed.
Lemma encode_settings ty iv k : encrypting ty -> zlen iv = 16 ->
  exists e : encres, encodeEncryptionSettings ty iv k (ENCRYPTION_CMD :: repeat 0 23) (1 + kEncryptionCmdLen) 1 = Ret e /\ firstn (Z.to_nat (er_pos e)) (er_buf e) = settings ty iv k.
Proof.
  intros T I. assert (Hty : in_nat63 ty) by (destruct T as [-> | ->]; split; reflexivity || discriminate).
  pose proof (settings_len ty iv k I) as L. rewrite <- (settings_eq ty iv k T I), zlen_cons in L.
  destruct (Encodes_EncSettings ty iv k Hty (ENCRYPTION_CMD :: repeat 0 23) (1 + kEncryptionCmdLen) 1 ltac:(lia) ltac:(discriminate))
    as [r (E & Ok & B & _)].
  exists r. split; [exact E|]. rewrite Ok in B. destruct (Z.leb_spec (1 + zlen (enc_settings_bytes ty iv k)) (1 + kEncryptionCmdLen)) as [_|X].
  - destruct (B eq_refl) as [B1 B2]. rewrite B1, B2, <- (settings_eq ty iv k T I). replace (1 + zlen (enc_settings_bytes ty iv k)) with 23 by lia.
    unfold splice. change (Z.to_nat 1) with 1%nat. change (Z.to_nat 23) with 23%nat.
    change (firstn 1 (ENCRYPTION_CMD :: repeat 0 23)) with [ENCRYPTION_CMD].
    cbn [app]. rewrite firstn_cons.
    f_equal. assert (Ln : length (enc_settings_bytes ty iv k) = 22%nat) by (unfold zlen in L; lia).
    rewrite firstn_app, Ln, firstn_all2 by lia. cbn [Nat.sub firstn]. apply app_nil_r.
  - unfold kEncryptionCmdLen, kAESBlockSize in X. lia.
Qed.

(** ** What is sent *)
Section Sent.
Context (K : cipher) (ty lim k : Z) (iv : list Z) (ivs : list (list Z)).
Let o : sopts := {| so_k := k; so_lim := lim |}.
Definition is_sent (s : wdts) (p : list Z) : Prop :=
  s_type s = ty /\ s_lim s = lim /\ s_wk s = k /\
  ((p = [] /\ s_setW s = false /\ s_encT s = ENC_NONE /\ w_out (s_w s) = [] /\ w_total (s_w s) = 0 /\ w_err (s_w s) = OK /\
      hd iv0 (w_ivs (s_w s)) = iv /\ tl (w_ivs (s_w s)) = ivs) \/
   (p <> [] /\ s_setW s = true /\ s_encT s = ty /\ wrel o (s_w s) (after K o (pst0 iv ivs) p) /\ w_out (s_w s) = sent K ty k lim iv ivs p) \/
   (w_err (s_w s) <> OK /\ exists rest, sent K ty k lim iv ivs p = w_out (s_w s) ++ rest)).
Lemma sent_app p q : q <> [] -> exists rest, sent K ty k lim iv ivs (p ++ q) = sent K ty k lim iv ivs p ++ rest.
Proof.
  intros Q. destruct p as [|b p]; [eexists; reflexivity|]. cbn [app sent]. fold o. change (b :: p ++ q) with ((b :: p) ++ q). rewrite wire_app.
  rewrite app_assoc. eexists; reflexivity.
Qed.
Lemma nonnil {A} (l : list A) : 0 < zlen l -> l <> [].
Proof. intros H ->. cbn in H. lia. Qed.
Lemma write_sent s p bs : encrypting ty -> zlen iv = 16 -> 0 < zlen bs -> is_sent s p ->
  exists ok s', write K s bs = Ret (ok, s') /\ is_sent s' (p ++ bs) /\ (ok = true <-> w_err (s_w s') = OK).
Proof.
  intros T I B (S1 & S2 & S3 & S). pose proof (nonnil bs B) as B0. unfold write. destruct (Z.leb_spec (zlen bs) 0) as [X|_]; [lia|].
  assert (Tn : ty <> ENC_NONE) by (destruct T as [-> | ->]; discriminate).
  assert (PB : p ++ bs <> []) by (intros Q; apply app_eq_nil in Q; destruct Q; contradiction).
  assert (CONT : forall s1, s_type s1 = ty -> s_lim s1 = lim -> s_wk s1 = k -> s_setW s1 = true -> s_encT s1 = ty ->
    wrel o (s_w s1) (after K o (pst0 iv ivs) p) -> w_out (s_w s1) = settings ty iv k ++ wire K o (pst0 iv ivs) p ->
    exists ok s', (if s_type s1 =? ENC_NONE then let '(ok, w) := writeInternal (s_w s1) bs in Ret (ok, put_w s1 w)
      else if s_encT s1 =? ENC_NONE then Crash
      else obind (sock_write K (w_opts s1) (s_w s1) bs) (fun x => let '(ok, w) := x in Ret (ok, put_w s1 w))) = Ret (ok, s') /\
      is_sent s' (p ++ bs) /\ (ok = true <-> w_err (s_w s') = OK)).
  { intros s1 A1 A2 A3 A4 A5 A6 A7. rewrite A1, A5, (proj2 (Z.eqb_neq _ _) Tn). assert (Ow : w_opts s1 = o) by (unfold w_opts; rewrite A2, A3; reflexivity).
    rewrite Ow. destruct (sock_write_ok K o (s_w s1) (after K o (pst0 iv ivs) p) bs B A6) as (ok & w & E & W). rewrite E. cbn [obind].
    exists ok, (put_w s1 w). split; [reflexivity|]. assert (Sn : sent K ty k lim iv ivs (p ++ bs) = (settings ty iv k ++ wire K o (pst0 iv ivs) p) ++ wire K o (after K o (pst0 iv ivs) p) bs).
    { unfold sent. fold o. destruct (p ++ bs) eqn:Q; [contradiction|]. rewrite <- Q, wire_app, app_assoc. reflexivity. }
    destruct ok; (split; [split; [exact A1|split; [exact A2|split; [exact A3|]]]|]).
    - right. left. destruct W as (W1 & W2 & _). split; [exact PB|]. split; [exact A4|]. split; [exact A5|]. split.
      + cbn [put_w s_w]. rewrite after_app. exact W1.
      + cbn [put_w s_w]. rewrite W2, A7, Sn. reflexivity.
    - split; [intros _|reflexivity]. destruct W as ((_ & _ & _ & W1 & _) & _). exact W1.
    - right. right. destruct W as (W1 & rest & W2). split; [exact W1|]. exists rest. cbn [put_w s_w]. rewrite <- W2, A7, Sn. reflexivity.
    - destruct W as (W1 & _). split; [discriminate|]. intros Q. contradiction. }
  destruct S as [S|[S|S]].
  - destruct S as (-> & A1 & A2 & A3 & A4 & A5 & A6 & A7). rewrite A5. change (negb (OK =? OK)) with false. cbn iota.
    unfold writeSettingsOnce. rewrite A1, A2, S1, (proj2 (Z.eqb_neq _ _) Tn). cbn [orb]. change (negb (ENC_NONE =? ENC_NONE)) with false. cbn iota.
    rewrite A6, S3. destruct (encode_settings ty iv k T I) as (e & E & Fs). rewrite E. cbn [obind]. rewrite Fs.
    set (w1 := {| w_enc := _ |}).
    destruct (writeInternal_ok w1 (settings ty iv k)) as (ok & w2 & Ew & W1 & W2 & W3 & _ & W4). rewrite Ew. cbn [obind].
    destruct ok.
    + destruct W4 as [W4 W5]. cbn [s_w]. rewrite W4. unfold w1 at 1. cbn [w_err]. rewrite A5. change (negb (OK =? OK)) with false. cbn iota.
      apply CONT; cbn [s_type s_lim s_wk s_setW s_encT s_w]; auto.
      * split; [rewrite W1; reflexivity|]. split; [intros _; rewrite W2; exact A4|]. split; [rewrite W3; exact A7|]. split; [rewrite W4; exact A5|cbn; lia].
      * rewrite W5. unfold w1. cbn [w_out]. rewrite A3. cbn [wire]. rewrite app_nil_r. reflexivity.
    + destruct W4 as [W4 (rest & W5)]. cbn [s_w]. rewrite (proj2 (Z.eqb_neq _ _) W4). cbn [negb].
      eexists _, _. split; [reflexivity|]. split; [|split; [discriminate|intros Q; contradiction]].
      split; [reflexivity|]. split; [exact S2|]. split; [reflexivity|]. right. right. cbn [s_w]. split; [exact W4|].
      unfold w1 in W5. cbn [w_out] in W5. rewrite A3 in W5. cbn [app] in W5. unfold sent. cbn [app]. destruct bs as [|b bs]; [contradiction|].
      rewrite W5, <- app_assoc. eexists; reflexivity.
  - destruct S as (P0 & A1 & A2 & A3 & A4). pose proof A3 as (_ & _ & _ & A5 & _). rewrite A5. change (negb (OK =? OK)) with false. cbn iota.
    unfold writeSettingsOnce. rewrite A1, orb_true_r. cbn [obind]. rewrite A5. change (negb (OK =? OK)) with false. cbn iota.
    apply CONT; auto. rewrite A4. unfold sent. destruct p; [contradiction|reflexivity].
  - destruct S as (A1 & rest & A2). rewrite (proj2 (Z.eqb_neq _ _) A1). cbn [negb]. exists false, s. split; [reflexivity|].
    split; [|split; [discriminate|intros Q; contradiction]]. split; [exact S1|]. split; [exact S2|]. split; [exact S3|]. right. right.
    split; [exact A1|]. destruct (sent_app p bs B0) as (r2 & ->). rewrite A2, <- app_assoc. eexists; reflexivity.
Qed.
Lemma read_same_w s n full bs s' : readWithTimeout K s n full = Ret (bs, s') -> wpart s' = wpart s.
Proof.
  intros E. pose proof (read_with_w K s (wpart s) n full) as Q. rewrite with_wpart, E in Q. cbn [obind also] in Q. injection Q as Q. rewrite Q.
  reflexivity.
Qed.
Lemma run_sent : encrypting ty -> zlen iv = 16 -> forall ops s p bs s',
  Forall read_or_write ops -> is_sent s p -> s_run K s ops = Ret (bs, s') -> s_type s' = ty -> is_sent s' (p ++ written ops).
Proof.
  intros T I. assert (Tn : ty <> ENC_NONE) by (destruct T as [-> | ->]; discriminate).
  induction ops as [|op ops IH]; intros s p bs s' F S R T'.
  - cbn in R. injection R as _ <-. cbn [written]. rewrite app_nil_r. exact S.
  - inversion F as [|? ? F1 F2]; subst. cbn [s_run] in R. destruct (s_step K s op) as [[b s1]| |] eqn:E; [|discriminate|discriminate]. cbn [obind] in R.
    destruct (s_run K s1 ops) as [[more s2]| |] eqn:R2; [|discriminate|discriminate]. cbn [obind] in R. injection R as _ <-.
    pose proof (run_kept K _ _ _ _ R2) as (_ & _ & _ & _ & _ & _ & KT).
    assert (T1 : s_type s1 = s_type s2) by (destruct KT as [KT|[_ KT]]; [symmetry; exact KT|exfalso; apply Tn; rewrite <- T'; exact KT]).
    destruct op as [n full|w|ok|]; cbn [s_step written] in *; [| |destruct F1|destruct F1].
    + eapply IH; [exact F2| |exact R2|exact T']. pose proof (read_same_w _ _ _ _ _ E) as Q. pose proof (read_kept K _ _ _ _ _ E) as (_ & _ & L & _ & Wk & _).
      destruct S as (S1 & S2 & S3 & S). unfold wpart in Q. injection Q as Q1 Q2 Q3 Q4. unfold is_sent. rewrite Q1, Q2, Q3, L, Wk.
      split; [rewrite T1; exact T'|exact (conj S2 (conj S3 S))].
    + destruct (write_sent s p w T I F1 S) as (ok & s3 & W & S3 & _). rewrite W in E. cbn [obind snd] in E. injection E as _ <-.
      rewrite app_assoc. eapply IH; eauto.
Qed.
End Sent.

Lemma used_wk K n s : used K n s -> s_type s <> ENC_NONE -> tagLen (s_type s) = 0 -> s_wk s = 0.
Proof.
  induction 1 as [ty lim supp k last ivs|n s l acc ops bs s' tagIO ok U IH R]; intros T L.
  - cbn in *. rewrite L. reflexivity.
  - pose proof (run_kept K _ _ _ _ R) as (A1 & _ & _ & _ & A5 & _ & A7).
    destruct (close_idle K s' tagIO ok) as (_ & _ & B3 & _ & _ & B6 & _); [rewrite A1; reflexivity|].
    rewrite B6, A5. rewrite B3 in T, L. destruct A7 as [A7|[_ A7]]; [|contradiction]. rewrite A7 in T, L. apply IH; assumption.
Qed.
Lemma used_sent K n s l acc iv ivs : used K n s -> s_type s <> ENC_NONE -> w_ivs (s_w s) = iv :: ivs ->
  is_sent K (s_type s) (s_lim s) (s_wk s) iv ivs (setFd s l acc) [].
Proof.
  intros U T V. destruct (used_idle _ _ _ U) as [I _]. destruct (idle_set s l acc I) as (vs & A1 & A2 & A3 & A4 & A5 & A6 & A7).
  split; [reflexivity|]. split; [reflexivity|]. split; [reflexivity|]. left. rewrite A2, A4, A7. rewrite A6 in V. cbn in V. subst vs. cbn. auto 10.
Qed.
Lemma sent_by K n s l acc ops bs s' iv ivs :
  used K n s -> encrypting (s_type s) -> w_ivs (s_w s) = iv :: ivs -> zlen iv = 16 -> Forall read_or_write ops ->
  s_run K (setFd s l acc) ops = Ret (bs, s') -> s_type s' <> ENC_NONE ->
  exists rest, sent K (s_type s) (s_wk s) (s_lim s) iv ivs (written ops) = w_out (s_w s') ++ rest /\ (w_err (s_w s') = OK -> rest = []).
Proof.
  intros U T V I F R T'. assert (Tn : s_type s <> ENC_NONE) by (destruct T as [-> | ->]; discriminate).
  pose proof (run_kept K _ _ _ _ R) as (_ & _ & _ & _ & _ & _ & KT).
  assert (Te : s_type s' = s_type s) by (destruct KT as [KT|[_ KT]]; [exact KT|contradiction]).
  destruct (run_sent K (s_type s) (s_lim s) (s_wk s) iv ivs T I ops _ [] bs s' F (used_sent K n s l acc iv ivs U Tn V) R Te)
    as (_ & _ & _ & [S|[S|S]]); cbn [app] in *.
  - destruct S as (-> & _ & _ & -> & _). exists []. auto.
  - destruct S as (_ & _ & _ & _ & ->). exists []. rewrite app_nil_r. auto.
  - destruct S as (E & rest & ->). exists rest. split; [reflexivity|]. intros Q. contradiction.
Qed.
Lemma sent_ended K n s l acc ops bs s' iv ivs s2 :
  good_cipher K -> used K n s -> encrypting (s_type s) -> w_ivs (s_w s) = iv :: ivs -> zlen iv = 16 -> Forall read_or_write ops -> written ops <> [] ->
  s_run K (setFd s l acc) ops = Ret (bs, s') -> s_type s' <> ENC_NONE -> w_err (s_w s') = OK ->
  shutdownWrites K s' true = (OK, s2) ->
  w_out (s_w s2) = sent K (s_type s) (s_wk s) (s_lim s) iv ivs (written ops) ++ end_tag K (s_type s) (s_wk s) (s_lim s) iv ivs (written ops).
Proof.
  intros G U T V I F Wn R T' Er Sh. assert (Tn : s_type s <> ENC_NONE) by (destruct T as [-> | ->]; discriminate).
  pose proof (run_kept K _ _ _ _ R) as (_ & _ & _ & _ & _ & _ & KT).
  assert (Te : s_type s' = s_type s) by (destruct KT as [KT|[_ KT]]; [exact KT|contradiction]).
  destruct (run_sent K (s_type s) (s_lim s) (s_wk s) iv ivs T I ops _ [] bs s' F (used_sent K n s l acc iv ivs U Tn V) R Te)
    as (_ & _ & _ & [S|[S|S]]); cbn [app] in *; [destruct S; contradiction| |destruct S; contradiction].
  destruct S as (_ & S1 & S2 & S3 & S4). unfold shutdownWrites, finalizeWrites in Sh. rewrite S2 in Sh. unfold end_tag.
  destruct S3 as (S3 & _). unfold final_tag in Sh. rewrite S3 in Sh. cbn [cr_iv cr_c] in Sh.
  set (st := after K _ (pst0 iv ivs) (written ops)) in *. destruct (s_type s =? ENC_AES128_GCM).
  - pose proof (G (x_iv st) (x_c st)) as L. destruct (tagf K (x_iv st) (x_c st)) as [|t0 t] eqn:Et; [discriminate L|].
    destruct (writeInternal_ok (s_w s') (t0 :: t)) as (ok & w & Ew & _ & _ & _ & _ & W). rewrite Ew in Sh. destruct ok; [|discriminate Sh].
    injection Sh as <-. cbn [s_w]. destruct W as [_ W]. rewrite W, S4. reflexivity.
  - injection Sh as <-. cbn [s_w]. rewrite S4, app_nil_r. reflexivity.
Qed.

(** ** What the peer gets *)
Lemma wants_after K : forall reqs s want, Forall (fun q => 0 < fst q) reqs -> s_setR s = true -> s_type s <> ENC_NONE -> s_decT s <> ENC_NONE ->
  wants K s reqs want = obind (drain K (r_opts s) (s_r s) reqs want) (fun y => let '(bs, r) := y in Ret (bs, put_r s r)).
Proof.
  induction reqs as [|[n full] reqs IH]; intros s want F S T D; cbn [wants drain].
  - cbn [obind]. destruct s; reflexivity.
  - inversion F as [|? ? F1 F2]; subst. cbn [fst] in F1. destruct (Z.leb_spec want 0) as [W|W]; [cbn [obind]; destruct s; reflexivity|].
    rewrite read_after by (assumption || lia).
    destruct (sock_read_call K (r_opts s) (s_r s) (Z.min n want) full) as [[bs r]| |]; [|reflexivity|reflexivity]. cbn [obind].
    rewrite IH by assumption. change (r_opts (put_r s r)) with (r_opts s). change (s_r (put_r s r)) with r.
    destruct (drain K (r_opts s) r reqs (want - zlen bs)) as [[more r2]| |]; reflexivity.
Qed.
Lemma wants_settings K ty iv k rest : encrypting ty -> zlen iv = 16 -> in_nat31 k -> (0 < k -> ty = ENC_AES128_GCM) ->
  forall reqs s want, Forall (fun q => 0 < fst q) reqs -> fresh s -> s_type s = ty -> 0 < want ->
  net_bytes (r_in (s_r s)) = settings ty iv k ++ rest ->
  (forall t, In t (timeouts 0 (r_in (s_r s))) -> t = 0 \/ 23 <= t) ->
  (length (timeouts 0 (r_in (s_r s))) < length reqs)%nat ->
  exists s3 reqs', wants K s reqs want = wants K s3 reqs' want /\ s_setR s3 = true /\ s_type s3 = ty /\ s_decT s3 = ty /\
    r_opts s3 = {| so_k := k; so_lim := s_lim s |} /\ r_err (s_r s3) = OK /\ r_dec (s_r s3) = {| cr_iv := iv; cr_c := [] |} /\
    r_total (s_r s3) = 0 /\ net_bytes (r_in (s_r s3)) = rest /\ Forall (fun q => 0 < fst q) reqs' /\
    exists T0, timeouts 0 (r_in (s_r s)) = T0 ++ timeouts 23 (r_in (s_r s3)) /\ (length reqs = length T0 + length reqs')%nat.
Proof.
  intros Ty Iv Kn Kg. assert (T : ty <> ENC_NONE) by (destruct Ty as [-> | ->]; discriminate).
  induction reqs as [|[n full] reqs IH]; intros s want F (F1 & F2 & F3 & F4) E0 W Nb Q Len; [cbn in Len; lia|].
  inversion F as [|? ? N F']; subst. cbn [fst] in N.
  destruct (readInternal_ok (s_r (r_fail s OK)) 1 true 0 ltac:(lia)) as (x & r1 & T1 & Ei & D1 & TT & _ & _ & B & Lx & To & Ti & Nn0 & O1 & O2).
  change (r_in (s_r (r_fail s OK))) with (r_in (s_r s)) in B, To. change (r_total (s_r (r_fail s OK))) with (r_total (s_r s)) in TT.
  assert (L : negb (r_err (s_r s) =? OK) && negb (r_err (s_r s) =? WDT_TIMEOUT) = false) by (destruct F4 as [F4|F4]; rewrite F4; reflexivity).
  assert (Hd : exists c0 x', settings (s_type s) iv k = ENCRYPTION_CMD :: x' /\ c0 = ENCRYPTION_CMD /\ zlen x' = 22).
  { exists ENCRYPTION_CMD, (tl (settings (s_type s) iv k)). pose proof (settings_len (s_type s) iv k Iv) as Sl. unfold settings in *. cbn [tl].
    rewrite zlen_cons in Sl. repeat split. lia. }
  destruct Hd as (_ & x' & Hd & _ & Lx'). rewrite Nb, Hd in B. destruct x as [|c x].
  - (* a time-out before the command *)
    destruct (O2 eq_refl) as [[Er Et]|[Er Et]].
    + assert (Stp : readWithTimeout K s (Z.min n want) full = Ret ([], put_r (r_fail s OK) r1)).
      { unfold readWithTimeout. destruct (Z.leb_spec (Z.min n want) 0) as [N0|_]; [lia|]. rewrite L. unfold readSettingsOnce.
        change (s_type (r_fail s OK)) with (s_type s). change (s_setR (r_fail s OK)) with (s_setR s). rewrite F1, (proj2 (Z.eqb_neq _ _) T). cbn [orb].
        rewrite Ei. cbn [obind]. change (s_r (put_r (r_fail s OK) r1)) with r1. rewrite Er.
        change (WDT_TIMEOUT =? UNEXPECTED_CMD_ERROR) with false. rewrite andb_false_r. reflexivity. }
      assert (To' : timeouts 0 (r_in (s_r s)) = 0 :: timeouts 0 (r_in r1)) by (rewrite To, Et; reflexivity).
      destruct (IH (put_r (r_fail s OK) r1) want F') as (s3 & rq & A1 & A2 & A3 & A4 & A5 & A6 & A7 & A8 & A9 & A10 & T0 & A11 & A12).
      * split; [exact F1|]. split; [exact F2|]. split; [change (r_total r1 = 0); rewrite TT; exact F3|right; exact Er].
      * reflexivity.
      * exact W.
      * change (net_bytes (r_in r1) = settings (s_type s) iv k ++ rest). rewrite Hd. cbn [app] in B |- *. symmetry. exact B.
      * change (r_in (s_r (put_r (r_fail s OK) r1))) with (r_in r1). intros t It. apply Q. rewrite To'. right. exact It.
      * change (r_in (s_r (put_r (r_fail s OK) r1))) with (r_in r1). rewrite To' in Len. cbn [length] in Len. lia.
      * exists s3, rq. split.
        { cbn [wants]. destruct (Z.leb_spec want 0) as [W0|_]; [lia|]. rewrite Stp. cbn [obind]. change (zlen []) with 0. rewrite Z.sub_0_r, A1.
          destruct (wants K s3 rq want) as [[more s2]| |]; reflexivity. }
        split; [exact A2|]. split; [exact A3|]. split; [exact A4|]. split; [exact A5|]. split; [exact A6|]. split; [exact A7|]. split; [exact A8|].
        split; [exact A9|]. split; [exact A10|]. exists (0 :: T0). change (r_in (s_r (put_r (r_fail s OK) r1))) with (r_in r1) in A11.
        rewrite To', A11. split; [reflexivity|]. cbn [length]. lia.
    + exfalso. rewrite (Nn0 Et (or_introl eq_refl) ltac:(cbn; lia)) in B. discriminate B.
  - assert (Ec : x = []) by (destruct x as [|y x]; [reflexivity|]; unfold zlen in Lx; cbn [length] in Lx; lia). subst x.
    cbn [app] in B. injection B as <- B.
    assert (T1e : T1 = []). { destruct T1 as [|t T1]; [reflexivity|]. destruct (Ti t (or_introl eq_refl)) as [_ Z0]. cbn in Z0. lia. }
    subst T1. cbn [app] in To. change (0 + zlen [ENCRYPTION_CMD]) with 1 in To.
    destruct (readInternal_ok r1 (kEncryptionCmdLen - 1) true 1 ltac:(reflexivity))
      as (y & r2 & T2 & Ei2 & D2 & TT2 & _ & _ & B2 & Ly & To2 & Ti2 & Nn & O3 & _).
    change (kEncryptionCmdLen - 1) with 22 in *.
    assert (T2e : T2 = []).
    { destruct T2 as [|t T2]; [reflexivity|]. destruct (Ti2 t (or_introl eq_refl)) as [Z1 Z2]. pose proof (zlen_nonneg y).
      assert (In t (timeouts 0 (r_in (s_r s)))) by (rewrite To, To2; left; reflexivity). apply Q in H0. lia. }
    subst T2. cbn [app] in To2. assert (Ly2 : zlen y = 22).
    { destruct (Z.eq_dec (zlen y) 22) as [Y|Y]; [exact Y|]. rewrite (Nn eq_refl (or_introl eq_refl)) in B2 by lia. rewrite app_nil_r in B2.
      rewrite <- B in B2. apply (f_equal zlen) in B2. rewrite zlen_app in B2. pose proof (zlen_nonneg rest). lia. }
    assert (Y : y = x' /\ net_bytes (r_in r2) = rest).
    { rewrite <- B in B2. symmetry in B2. destruct (app_same_len _ _ _ _ B2); [unfold zlen in *; lia|]. auto. }
    destruct Y as [-> Nr].
    assert (Sy : says x' (s_last s) (s_type s) iv k) by (pose proof (says_settings (s_type s) iv k (s_last s) Ty Iv Kn) as Sy; rewrite Hd in Sy; exact Sy).
    destruct Sy as (pos & Sy). set (s3 := startDec (put_rk (put_r (put_r (r_fail s OK) r1) r2) k) iv).
    assert (Once : readSettingsOnce (r_fail s OK) = Ret (s3, 0)).
    { unfold readSettingsOnce. change (s_type (r_fail s OK)) with (s_type s). change (s_setR (r_fail s OK)) with (s_setR s).
      rewrite F1, (proj2 (Z.eqb_neq _ _) T). cbn [orb]. rewrite Ei. change (negb (ENCRYPTION_CMD =? ENCRYPTION_CMD)) with false. cbn iota.
      unfold settings_body. change (s_r (put_r (r_fail s OK) r1)) with r1. change (kEncryptionCmdLen - 1) with 22. rewrite Ei2, Ly2.
      change (negb (22 =? 22)) with false. cbn iota. change (s_last (put_r (r_fail s OK) r1)) with (s_last s). rewrite Sy. cbn [obind].
      change (s_type (put_r (r_fail s OK) r1)) with (s_type s). rewrite Z.eqb_refl. cbn [negb]. destruct (Z.ltb_spec k 0) as [K0|K0]; [destruct Kn; lia|].
      assert (G : (0 <? k) && (tagLen (s_type s) =? 0) = false).
      { destruct (Z.ltb_spec 0 k) as [Kp|Kp]; [rewrite (Kg Kp)|]; reflexivity. }
      rewrite G, Iv. reflexivity. }
    exists s3, ((n, full) :: reqs). split.
    { cbn [wants]. destruct (Z.leb_spec want 0) as [W0|_]; [lia|].
      assert (Same : readWithTimeout K s (Z.min n want) full = readWithTimeout K s3 (Z.min n want) full).
      { rewrite (read_after K s3); [|lia|reflexivity|exact T|exact T]. unfold readWithTimeout. destruct (Z.leb_spec (Z.min n want) 0) as [N0|_]; [lia|].
        rewrite L, Once. cbn [obind]. assert (E3 : r_err (s_r s3) = OK) by (cbn; apply O3; intros ->; discriminate Ly2). rewrite E3.
        change (OK =? UNEXPECTED_CMD_ERROR) with false. rewrite andb_false_r. change (negb (OK =? OK)) with false. cbn iota.
        change (s_type s3) with (s_type s). change (s_decT s3) with (s_type s). rewrite (proj2 (Z.eqb_neq _ _) T).
        destruct (sock_read_call K (r_opts s3) (s_r s3) (Z.min n want) full) as [[bs r]| |]; [|reflexivity|reflexivity]. cbn [obind].
        destruct bs; reflexivity. }
      rewrite Same. reflexivity. }
    split; [reflexivity|]. split; [reflexivity|]. split; [reflexivity|]. split; [reflexivity|].
    split; [cbn; apply O3; intros ->; discriminate Ly2|]. split; [reflexivity|]. split; [change (r_total r2 = 0); rewrite TT2, TT; exact F3|].
    split; [exact Nr|]. split; [exact F|]. exists []. split; [|reflexivity]. cbn [app]. rewrite To, To2, Ly2. reflexivity.
Qed.

Lemma quiet_shift K o s p T : quiet K o s p (map (fun t => t - 23) T) -> quiet_at K o 23 s p T.
Proof.
  intros Q p1 b p2 t E D I. assert (I' : In (t - 23) (map (fun t => t - 23) T)) by (apply in_map_iff; exists t; auto).
  specialize (Q p1 b p2 (t - 23) E D I'). lia.
Qed.
Lemma quiet_sub K o off s p T1 T2 : quiet_at K o off s p (T1 ++ T2) -> quiet_at K o off s p T2.
Proof. intros Q p1 b p2 t E D I. apply (Q p1 b p2 t E D). apply in_or_app. auto. Qed.
(** From one socket to the other. *)
Lemma roundtrip K n a m b la acca ops got a' a2 iv ivs l accb reqs :
  good_cipher K -> used K n a -> used K m b -> encrypting (s_type a) -> s_type b = s_type a -> s_lim b = s_lim a ->
  w_ivs (s_w a) = iv :: ivs -> good_ivs (iv :: ivs) -> in_nat31 (s_wk a) ->
  Forall read_or_write ops -> written ops <> [] -> s_run K (setFd a la acca) ops = Ret (got, a') -> s_type a' <> ENC_NONE ->
  w_err (s_w a') = OK -> shutdownWrites K a' true = (OK, a2) ->
  net_bytes l = w_out (s_w a2) ->
  (forall t, In t (timeouts 0 l) -> t = 0 \/ 23 <= t) ->
  quiet K {| so_k := s_wk a; so_lim := s_lim a |} (pst0 iv ivs) (written ops) (map (fun t => t - 23) (timeouts 0 l)) ->
  Forall (fun q => 0 < fst q) reqs -> (length (written ops) + length (timeouts 0 l) <= length reqs)%nat ->
  exists b', wants K (setFd b l accb) reqs (zlen (written ops)) = Ret (written ops, b') /\ s_type b' = s_type a /\
    (timeouts 0 l = [] -> fst (expectEndOfStream K b') = OK /\ net_bytes (r_in (s_r (snd (expectEndOfStream K b')))) = []).
Proof.
  intros G U V Ty Tb Lb Iv Gi Kn F Wn R T' Er Sh Nb Qt Qu Fr Len.
  pose proof (Forall_inv Gi) as I16. cbn in I16. pose proof (Forall_inv_tail Gi) as Gi'. fold (good_ivs ivs) in Gi'.
  pose proof (sent_ended K n a la acca ops got a' iv ivs a2 G U Ty Iv I16 F Wn R T' Er Sh) as Out. rewrite Out in Nb. clear Out.
  set (plain := written ops) in *. set (o := {| so_k := s_wk a; so_lim := s_lim a |}) in *.
  assert (Tn : s_type a <> ENC_NONE) by (destruct Ty as [-> | ->]; discriminate).
  assert (Kg : 0 < s_wk a -> s_type a = ENC_AES128_GCM).
  { intros Kp. apply gcm_tag. intros Z0. pose proof (used_wk K n a U Tn Z0). lia. }
  assert (Sn : sent K (s_type a) (s_wk a) (s_lim a) iv ivs plain = settings (s_type a) iv (s_wk a) ++ wire K o (pst0 iv ivs) plain).
  { unfold sent. fold o. destruct plain; [contradiction|reflexivity]. }
  rewrite Sn, <- app_assoc in Nb. destruct (used_idle _ _ _ V) as [Ib _]. pose proof (idle_fresh b l accb Ib) as Fb.
  destruct (idle_set b l accb Ib) as (vs & _ & _ & _ & _ & Rb & _).
  assert (Pl : (0 < length plain)%nat) by (destruct plain; [contradiction|cbn; lia]).
  assert (Zp : 0 < zlen plain) by (unfold zlen; lia).
  destruct (wants_settings K (s_type a) iv (s_wk a) _ Ty I16 Kn Kg reqs (setFd b l accb) (zlen plain) Fr Fb Tb Zp Nb)
    as (s3 & rq & A1 & A2 & A3 & A4 & A5 & A6 & A7 & A8 & A9 & A10 & T0 & A11 & A12).
  { rewrite Rb. exact Qt. }
  { rewrite Rb. cbn [rsock0 r_in]. lia. }
  rewrite Rb in A11. cbn [rsock0 r_in] in A11. change (s_lim (setFd b l accb)) with (s_lim b) in A5. rewrite Lb in A5. fold o in A5.
  rewrite (wants_after K rq) in A1; [|exact A10|exact A2|rewrite A3; exact Tn|rewrite A4; exact Tn]. rewrite A5 in A1.
  assert (Rel : rel (s_r s3) (pst0 iv ivs)) by (split; [exact A7|split; [exact A8|cbn; lia]]).
  apply quiet_shift in Qu. rewrite A11 in Qu. apply quiet_sub in Qu.
  destruct (drain_ok (end_tag K (s_type a) (s_wk a) (s_lim a) iv ivs plain) K o rq (s_r s3) (pst0 iv ivs) plain 23) as (r & B1 & B2 & B3 & B4 & _ & B6); auto.
  { destruct Kn. exact H. }
  { left. exact A6. }
  { rewrite A11, app_length in Len. lia. }
  rewrite B1 in A1. cbn [obind] in A1. exists (put_r s3 r). split; [exact A1|]. split; [exact A3|]. intros N0.
  rewrite A11 in N0. apply app_eq_nil in N0. destruct N0 as [_ N0]. destruct (B6 N0) as (off & N1). destruct B3 as (B3 & _).
  unfold expectEndOfStream, finalizeReadsIO. change (s_type (put_r s3 r)) with (s_type s3). change (s_r (put_r s3 r)) with r. rewrite A3.
  unfold end_tag in B4. fold o in B4. set (st := after K o (pst0 iv ivs) plain) in *. destruct (Z.eqb_spec (s_type a) ENC_AES128_GCM) as [Gc|Gc].
  - rewrite Gc. change (negb (tagLen ENC_AES128_GCM =? 0) && true) with true. cbn iota. unfold readEncryptionTag.
    destruct (readInternal_ok r 16 true off ltac:(lia)) as (x & r2 & T1 & Ei & Dr & _ & _ & _ & Nx & Lx & To & _ & Nn & _). rewrite Ei.
    rewrite N1 in To. symmetry in To. apply app_eq_nil in To. destruct To as [-> _]. rewrite B4 in Nx.
    assert (X : zlen x = 16).
    { destruct (Z.eq_dec (zlen x) 16) as [X|X]; [exact X|]. rewrite (Nn eq_refl (or_introl eq_refl)) in Nx by lia. rewrite app_nil_r in Nx.
      rewrite <- Nx. apply G. }
    assert (Y : x = tagf K (x_iv st) (x_c st) /\ net_bytes (r_in r2) = []).
    { assert (Nx' : x ++ net_bytes (r_in r2) = tagf K (x_iv st) (x_c st) ++ []) by (rewrite app_nil_r; symmetry; exact Nx).
      apply app_same_len in Nx'; [exact Nx'|]. pose proof (G (x_iv st) (x_c st)). unfold zlen in *. lia. }
    destruct Y as [Y1 Y2]. rewrite X. change (16 =? 16) with true. cbn iota. cbn [fst snd s_r]. split; [|exact Y2].
    unfold decFinish. change (s_decT (put_r (put_r s3 r) r2)) with (s_decT s3). rewrite A4, Gc. change (ENC_AES128_GCM =? ENC_AES128_GCM) with true. cbn iota.
    change (s_r (put_r (put_r s3 r) r2)) with r2. assert (Tk : tag_ok K (r_dec r2) x = true) by (apply tag_ok_spec; rewrite Dr, B3; exact Y1).
    rewrite Tk. reflexivity.
  - assert (Z0 : tagLen (s_type a) = 0) by (unfold tagLen; rewrite (proj2 (Z.eqb_neq _ _) Gc); reflexivity). rewrite Z0.
    change (negb (0 =? 0) && true) with false. cbn iota. cbn [fst snd s_r]. split; [|exact B4].
    unfold decFinish. change (s_decT (put_r (put_r s3 r) r)) with (s_decT s3). rewrite A4, (proj2 (Z.eqb_neq _ _) Gc). reflexivity.
Qed.

(** ** No failed check *)
Definition known (ty : Z) : Prop := ty = ENC_NONE \/ encrypting ty.
Definition r_safe (s : wdts) : Prop :=
  s_type s = ENC_NONE \/ ~ live (r_err (s_r s)) \/ (s_setR s = false /\ r_total (s_r s) = 0) \/
  (s_setR s = true /\ s_decT s <> ENC_NONE /\ 0 <= s_rk s /\ exists st f, rel (s_r s) st /\ (f = true -> due (s_rk s) st = true)).
Definition w_safe (s : wdts) : Prop :=
  s_type s = ENC_NONE \/ w_err (s_w s) <> OK \/
  (s_setW s = false /\ s_encT s = ENC_NONE /\ w_total (s_w s) = 0 /\ good_ivs (w_ivs (s_w s))) \/
  (s_setW s = true /\ s_encT s <> ENC_NONE /\ exists st, wrel (w_opts s) (s_w s) st).
Definition bytes_left (s : wdts) : Prop := bytes_ok (net_bytes (r_in (s_r s))).

Lemma SafeDec_EncSettings : SafeDec decodeEncryptionSettings (fun _ => True).
Proof.
  unfold decodeEncryptionSettings. apply SafeDec_bind with (P := in_nat63); [apply SafeDec_Int64C|intros ty _].
  apply SafeDec_W, SafeDec_bind with (P := bytes_ok); [apply SafeDec_String|intros iv _].
  apply SafeDec_W, SafeDec_bind with (P := fun _ => True); [eapply SafeDec_weaken; [|apply SafeDec_Fixed; lia]; auto|intros k _].
  apply SafeDecW_ret. exact I.
Qed.
Lemma decode_settings_total x last : zlen x = 22 -> bytes_ok x -> is_byte last ->
  exists d, decode_at decodeEncryptionSettings (x ++ [last]) 0 kEncryptionCmdLen = Ret d.
Proof.
  intros L B La. unfold decode_at. assert (M : makeByteRange (x ++ [last]) kEncryptionCmdLen 0 = Ret (x ++ [last])).
  { unfold makeByteRange, kEncryptionCmdLen, kAESBlockSize. assert (L2 : zlen (x ++ [last]) = 23) by (rewrite zlen_app; change (zlen [last]) with 1; lia).
    rewrite L2. cbn -[slice]. f_equal. unfold slice. cbn [Z.to_nat]. rewrite skipn_O. apply firstn_all2. unfold zlen in L2. lia. }
  rewrite M. cbn [obind]. destruct (SafeDec_EncSettings (x ++ [last])) as (r & E & _).
  { apply Forall_app. split; [exact B|]. constructor; [exact La|constructor]. }
  rewrite E. cbn [obind]. destruct r as [[a rest]|]; eauto.
Qed.
Lemma readPlain_total r n full : exists bs r', readPlain r n full = (bs, r') /\ net_bytes (r_in r) = bs ++ net_bytes (r_in r').
Proof. apply readPlain_net. Qed.
Lemma bytes_suffix a b c : bytes_ok a -> a = b ++ c -> bytes_ok c.
Proof. intros B ->. apply Forall_app in B. apply B. Qed.

Lemma body_total s : is_byte (s_last s) -> bytes_left s -> r_total (s_r s) = 0 -> s_type s <> ENC_NONE ->
  exists s', settings_body s = Ret s' /\ r_safe s' /\ bytes_left s' /\ r_err (s_r s') <> UNEXPECTED_CMD_ERROR /\
    (r_err (s_r s') = OK -> s_setR s' = true /\ s_decT s' = s_type s' /\ s_type s' = s_type s).
Proof.
  intros La B Tt T.
  assert (Tot : exists s', settings_body s = Ret s' /\ bytes_left s').
  { unfold settings_body. destruct (readInternal_ok (s_r s) (kEncryptionCmdLen - 1) true 0 ltac:(reflexivity)) as (x & r2 & T1 & E & _ & _ & _ & _ & Nb & _).
    rewrite E. assert (B2 : bytes_ok (net_bytes (r_in r2))) by (eapply bytes_suffix; [exact B|exact Nb]).
    assert (B3 : forall e, bytes_left (r_fail (put_r s r2) e)) by (intros e; exact B2).
    assert (B4 : forall e k, bytes_left (r_fail (put_rk (put_r s r2) k) e)) by (intros e k; exact B2).
    destruct (Z.eqb_spec (zlen x) (kEncryptionCmdLen - 1)) as [L|L]; cbn [negb]; [|eauto].
    destruct (decode_settings_total x (s_last s) L) as (d & D); [|exact La|].
    { unfold bytes_left in B. rewrite Nb in B. apply Forall_app in B. apply B. }
    rewrite D. cbn [obind]. destruct d as [[[[ty iv] k] pos]|]; [|eauto].
    destruct (negb _); [eauto|]. destruct (k <? 0); [eauto|]. destruct (_ && _); [eauto|]. destruct (negb _); [eauto|].
    eexists. split; [reflexivity|exact B2]. }
  destruct Tot as (s' & E & Bl). exists s'. split; [exact E|].
  destruct (body_cases s s' E) as [[D U]|(x & r2 & iv & k & Nb & L & Sy & Iv & Kn & Kg & Er & Tr & ->)].
  - split; [right; left; exact D|]. split; [exact Bl|]. split; [exact U|]. intros Q. destruct D. left. exact Q.
  - split.
    { right. right. right. split; [reflexivity|]. split; [exact T|]. split; [exact Kn|]. exists (pst0 iv []), false. split; [|discriminate].
      split; [reflexivity|]. split; [|cbn; lia]. change (r_total r2 = 0). rewrite Tr. exact Tt. }
    split; [exact Bl|]. split; [change (r_err r2 <> UNEXPECTED_CMD_ERROR); rewrite Er; discriminate|]. auto.
Qed.
Lemma read_total K s n full : 0 < n -> is_byte (s_last s) -> bytes_left s -> r_safe s ->
  exists bs s', readWithTimeout K s n full = Ret (bs, s') /\ r_safe s' /\ bytes_left s'.
Proof.
  intros N La B S. unfold readWithTimeout. destruct (Z.leb_spec n 0) as [N0|_]; [lia|].
  destruct (negb (r_err (s_r s) =? OK) && negb (r_err (s_r s) =? WDT_TIMEOUT)) eqn:L; [eauto 10|].
  assert (Lv : live (r_err (s_r s))).
  { apply andb_false_iff in L. destruct L as [L|L]; apply negb_false_iff, Z.eqb_eq in L; [left|right]; exact L. }
  assert (PL : forall s1, s_type s1 = ENC_NONE -> bytes_left s1 -> forall m c, exists bs s', (let '(bs, r) := readPlain (s_r s1) m full in
     Ret (c ++ bs, put_r s1 r)) = Ret (bs, s') /\ r_safe s' /\ bytes_left s').
  { intros s1 T1 B1 m c. destruct (readPlain_total (s_r s1) m full) as (x & r & E & Nb). rewrite E. eexists _, _. split; [reflexivity|].
    split; [left; exact T1|]. eapply bytes_suffix; [exact B1|exact Nb]. }
  assert (CONT : forall s1, s_setR s1 = true -> s_decT s1 <> ENC_NONE -> 0 <= s_rk s1 -> r_err (s_r s1) = OK -> bytes_left s1 ->
    (exists st f, rel (s_r s1) st /\ (f = true -> due (s_rk s1) st = true)) ->
    exists bs s', obind (sock_read_call K (r_opts s1) (s_r s1) n full) (fun y => let '(bs, r) := y in
      match bs with [] => Ret ([], put_r s1 r) | _ => if s_decT s1 =? ENC_NONE then Crash else Ret (bs, put_r s1 r) end) = Ret (bs, s') /\
      r_safe s' /\ bytes_left s').
  { intros s1 A1 A2 A3 A4 A5 (st & f & A6 & A7).
    destruct (sock_read_call_step K (r_opts s1) (s_r s1) st f n full 0 A3 N (or_introl A4) A6 A7) as (bs & r & E & _ & w & extra & lost & st' & f' & T1 & Nb & _ & _ & Lv1 & _).
    rewrite E. cbn [obind]. rewrite (proj2 (Z.eqb_neq _ _) A2).
    assert (Q : r_safe (put_r s1 r) /\ bytes_left (put_r s1 r)).
    { split.
      - destruct (live_dec (r_err r)) as [Lr|Lr]; [|right; left; exact Lr]. destruct (Lv1 Lr) as (_ & _ & R' & Df). right. right. right.
        split; [exact A1|]. split; [exact A2|]. split; [exact A3|]. exists st', f'. auto.
      - eapply bytes_suffix; [exact A5|]. rewrite Nb, app_assoc. reflexivity. }
    destruct Q. destruct bs; eexists _, _; (split; [reflexivity|auto]). }
  unfold readSettingsOnce. change (s_type (r_fail s OK)) with (s_type s). change (s_setR (r_fail s OK)) with (s_setR s).
  destruct (Z.eqb_spec (s_type s) ENC_NONE) as [T|T].
  - cbn [orb obind]. change (r_err (s_r (r_fail s OK))) with OK. change (OK =? UNEXPECTED_CMD_ERROR) with false. rewrite andb_false_r.
    change (negb (OK =? OK)) with false. cbn iota. change (s_type (r_fail s OK)) with (s_type s). rewrite T. change (ENC_NONE =? ENC_NONE) with true. cbn iota.
    apply (PL (r_fail s OK) T B n []).
  - cbn [orb]. destruct S as [S|[S|[[S1 S2]|(S1 & S2 & S3 & S4)]]]; [contradiction|contradiction| |].
    + rewrite S1.
      destruct (readInternal_ok (s_r (r_fail s OK)) 1 true 0 ltac:(lia)) as (x & r1 & T1 & Ei & D1 & TT & _ & _ & Nb & Lx & _ & _ & _ & O1 & O2).
      rewrite Ei. assert (B1 : bytes_left (put_r (r_fail s OK) r1)) by (eapply bytes_suffix; [exact B|exact Nb]).
      destruct x as [|c x].
      * cbn [obind]. change (s_r (put_r (r_fail s OK) r1)) with r1.
        assert (X : s_supp s && (r_err r1 =? UNEXPECTED_CMD_ERROR) = false /\ negb (r_err r1 =? OK) = true).
        { destruct (O2 eq_refl) as [[Er _]|[Er _]]; rewrite Er; split; try reflexivity; apply andb_false_r. }
        destruct X as [-> ->]. eexists _, _. split; [reflexivity|]. split; [|exact B1].
        right. right. left. split; [exact S1|]. change (r_total r1 = 0). rewrite TT. exact S2.
      * destruct (Z.eqb_spec c ENCRYPTION_CMD) as [C|C]; cbn [negb].
        -- destruct (body_total (put_r (r_fail s OK) r1) La B1) as (s3 & E & R3 & B3 & U3 & Ok3).
           { change (r_total r1 = 0). rewrite TT. exact S2. } { exact T. }
           rewrite E. cbn [obind]. rewrite (proj2 (Z.eqb_neq _ _) U3), andb_false_r.
           destruct (Z.eqb_spec (r_err (s_r s3)) OK) as [Eo|Eo]; cbn [negb]; [|eauto 10].
           destruct (Ok3 Eo) as (C1 & C2 & C3). change (s_type (put_r (r_fail s OK) r1)) with (s_type s) in C3. rewrite C3, (proj2 (Z.eqb_neq _ _) T).
           destruct R3 as [R3|[R3|[[R3 _]|(R3 & R4 & R5 & R6)]]]; [rewrite C3 in R3; contradiction|destruct R3; left; exact Eo|congruence|].
           apply CONT; auto.
        -- cbn [obind]. change (r_err (s_r (r_fail (put_r (r_fail s OK) r1) UNEXPECTED_CMD_ERROR))) with UNEXPECTED_CMD_ERROR.
           change (UNEXPECTED_CMD_ERROR =? UNEXPECTED_CMD_ERROR) with true. rewrite andb_true_r. destruct (s_supp s).
           ++ apply (PL (erase (r_fail (r_fail (put_r (r_fail s OK) r1) UNEXPECTED_CMD_ERROR) OK)) eq_refl B1 (n - 1) [c]).
           ++ change (negb (UNEXPECTED_CMD_ERROR =? OK)) with true. cbn iota. eexists _, _. split; [reflexivity|]. split; [|exact B1].
              right. left. cbn. unfold live. intros [X|X]; discriminate X.
    + rewrite S1. cbn [obind]. change (r_err (s_r (r_fail s OK))) with OK. change (OK =? UNEXPECTED_CMD_ERROR) with false. rewrite andb_false_r.
      change (negb (OK =? OK)) with false. cbn iota. change (s_type (r_fail s OK)) with (s_type s). rewrite (proj2 (Z.eqb_neq _ _) T).
      apply (CONT (r_fail s OK)); auto.
Qed.
Lemma write_total K s bs : 0 < zlen bs -> known (s_type s) -> w_safe s -> exists ok s', write K s bs = Ret (ok, s') /\ w_safe s'.
Proof.
  intros B Kn S. unfold write. destruct (Z.leb_spec (zlen bs) 0) as [X|_]; [lia|].
  destruct (Z.eqb_spec (w_err (s_w s)) OK) as [Eo|Eo]; cbn [negb]; [|eauto].
  assert (CONT : forall s1, s_type s1 <> ENC_NONE -> s_setW s1 = true -> s_encT s1 <> ENC_NONE -> (exists st, wrel (w_opts s1) (s_w s1) st) ->
    exists ok s', (if negb (w_err (s_w s1) =? OK) then Ret (false, s1)
      else if s_type s1 =? ENC_NONE then let '(ok, w) := writeInternal (s_w s1) bs in Ret (ok, put_w s1 w)
      else if s_encT s1 =? ENC_NONE then Crash
      else obind (sock_write K (w_opts s1) (s_w s1) bs) (fun x => let '(ok, w) := x in Ret (ok, put_w s1 w))) = Ret (ok, s') /\ w_safe s').
  { intros s1 A1 A2 A3 (st & A4). pose proof A4 as (_ & _ & _ & A5 & _). rewrite A5. change (negb (OK =? OK)) with false. cbn iota.
    rewrite (proj2 (Z.eqb_neq _ _) A1), (proj2 (Z.eqb_neq _ _) A3).
    destruct (sock_write_ok K (w_opts s1) (s_w s1) st bs B A4) as (ok & w & E & W). rewrite E. cbn [obind]. eexists _, _. split; [reflexivity|].
    destruct ok; [right; right; right; destruct W as [W _]; split; [exact A2|split; [exact A3|exists (after K (w_opts s1) st bs); exact W]]|].
    right. left. apply W. }
  unfold writeSettingsOnce. destruct (Z.eqb_spec (s_type s) ENC_NONE) as [T|T].
  - cbn [orb obind]. rewrite Eo. change (negb (OK =? OK)) with false. cbn iota. rewrite T. change (ENC_NONE =? ENC_NONE) with true. cbn iota.
    destruct (writeInternal (s_w s) bs) as [ok w]. eexists _, _. split; [reflexivity|left; exact T].
  - cbn [orb]. destruct S as [S|[S|[(S1 & S2 & S3 & S4)|(S1 & S2 & S3)]]]; [contradiction|contradiction| |].
    + rewrite S1, S2. change (negb (ENC_NONE =? ENC_NONE)) with false. cbn iota.
      assert (Ty : encrypting (s_type s)) by (destruct Kn as [Kn|Kn]; [contradiction|exact Kn]).
      destruct (encode_settings (s_type s) (hd iv0 (w_ivs (s_w s))) (s_wk s) Ty (good_hd _ S4)) as (e & E & Fs). rewrite E. cbn [obind]. rewrite Fs.
      match goal with |- context [writeInternal ?w ?x] => destruct (writeInternal_ok w x) as (ok & w2 & Ew & W1 & W2 & W3 & _ & W4) end.
      rewrite Ew. cbn [obind]. destruct ok.
      * apply CONT; auto. exists (pst0 (hd iv0 (w_ivs (s_w s))) (tl (w_ivs (s_w s)))). cbn [s_w]. split; [exact W1|].
        split; [intros _; rewrite W2; exact S3|]. split; [exact W3|]. split; [destruct W4 as [W4 _]; rewrite W4; exact Eo|cbn; lia].
      * destruct W4 as [W4 _]. cbn [s_w]. rewrite (proj2 (Z.eqb_neq _ _) W4). cbn [negb]. eexists _, _. split; [reflexivity|]. right. left. exact W4.
    + rewrite S1. cbn [obind]. apply CONT; auto.
Qed.
Lemma no_crash K : forall ops s wend rend,
  orderly wend rend ops -> known (s_type s) -> is_byte (s_last s) -> bytes_left s ->
  (rend = false -> r_safe s) -> (wend = false -> w_safe s) -> exists bs s', s_run K s ops = Ret (bs, s').
Proof.
  induction ops as [|op ops IH]; intros s wend rend O Kn La B R W; [cbn; eauto|]. cbn [s_run].
  assert (NEXT : forall b s1 we re, s_step K s op = Ret (b, s1) -> orderly we re ops -> known (s_type s1) -> is_byte (s_last s1) -> bytes_left s1 ->
    (re = false -> r_safe s1) -> (we = false -> w_safe s1) ->
    exists bs s', obind (s_step K s op) (fun x => let '(bs, s1) := x in
      obind (s_run K s1 ops) (fun y => let '(more, s2) := y in Ret (bs ++ more, s2))) = Ret (bs, s')).
  { intros b s1 we re E O' Kn' La' B' R' W'. rewrite E. cbn [obind]. destruct (IH s1 we re O' Kn' La' B' R' W') as (bs & s' & ->). cbn [obind]. eauto. }
  assert (KT : forall b s1, s_step K s op = Ret (b, s1) -> kept s s1).
  { intros b s1 E. apply (run_kept K [op] s (b ++ []) s1). cbn [s_run]. rewrite E. reflexivity. }
  assert (KN : forall s1, kept s s1 -> known (s_type s1) /\ is_byte (s_last s1)).
  { intros s1 (_ & _ & _ & _ & _ & A6 & A7). rewrite A6. split; [|exact La]. destruct A7 as [A7|[_ A7]]; [rewrite A7; exact Kn|left; exact A7]. }
  destruct op as [n full|bs|ok|]; cbn [orderly s_step] in *.
  - destruct O as (N & -> & O). destruct (read_total K s n full N La B (R eq_refl)) as (b & s1 & E & R1 & B1).
    pose proof (KT _ _ E) as Kp. destruct (KN s1 Kp) as [Kn1 La1].
    apply (NEXT b s1 wend false E O Kn1 La1 B1); [auto|]. intros We. specialize (W We).
    pose proof (read_same_w K _ _ _ _ _ E) as Q. unfold wpart in Q. injection Q as Q1 Q2 Q3 Q4.
    destruct Kp as (_ & _ & L & _ & Wk & _ & A7). destruct A7 as [A7|[_ A7]]; [|left; exact A7].
    unfold w_safe, w_opts. rewrite Q1, Q2, Q3, L, Wk, A7. exact W.
  - destruct O as (N & -> & O). destruct (write_total K s bs N Kn (W eq_refl)) as (ok & s1 & E & W1).
    assert (E' : obind (write K s bs) (fun x => Ret (@nil Z, snd x)) = Ret ([], s1)) by (rewrite E; reflexivity).
    pose proof (KT _ _ E') as Kp. destruct (KN s1 Kp) as [Kn1 La1]. pose proof (write_with_w K _ _ _ _ E) as (q & Eq).
    assert (Sr : s_r s1 = s_r s /\ s_setR s1 = s_setR s /\ s_decT s1 = s_decT s /\ s_rk s1 = s_rk s /\ s_type s1 = s_type s)
      by (rewrite Eq; destruct q as [[[? ?] ?] ?]; auto).
    destruct Sr as (Q1 & Q2 & Q3 & Q4 & Q5).
    apply (NEXT [] s1 false rend E' O Kn1 La1); [unfold bytes_left; rewrite Q1; exact B| |auto].
    intros Re. specialize (R Re). unfold r_safe. rewrite Q1, Q2, Q3, Q4, Q5. exact R.
  - pose proof (KT _ _ eq_refl) as Kp. destruct (KN _ Kp) as [Kn1 La1]. destruct (shutdown_with_w K s ok) as (q & Eq).
    set (s1 := snd (shutdownWrites K s ok)) in *.
    assert (Sr : s_r s1 = s_r s /\ s_setR s1 = s_setR s /\ s_decT s1 = s_decT s /\ s_rk s1 = s_rk s /\ s_type s1 = s_type s)
      by (rewrite Eq; destruct q as [[[? ?] ?] ?]; auto).
    destruct Sr as (Q1 & Q2 & Q3 & Q4 & Q5).
    apply (NEXT [] s1 true rend eq_refl O Kn1 La1); [unfold bytes_left; rewrite Q1; exact B| |discriminate].
    intros Re. specialize (R Re). unfold r_safe. rewrite Q1, Q2, Q3, Q4, Q5. exact R.
  - pose proof (KT _ _ eq_refl) as Kp. destruct (KN _ Kp) as [Kn1 La1].
    apply (NEXT [] _ wend true eq_refl O Kn1 La1); [|discriminate|].
    + unfold expectEndOfStream, finalizeReadsIO, bytes_left. destruct (negb (tagLen (s_type s) =? 0) && true).
      * unfold readEncryptionTag. destruct (readInternal_ok (s_r s) 16 true 0 ltac:(lia)) as (x & r & T1 & Ei & _ & _ & _ & _ & Nb & _).
        rewrite Ei. destruct (zlen x =? 16); cbn [snd s_r r_set r_in]; eapply bytes_suffix; try exact B; exact Nb.
      * exact B.
    + intros We. specialize (W We). unfold expectEndOfStream, finalizeReadsIO.
      destruct (if negb (tagLen (s_type s) =? 0) && true then readEncryptionTag (s_r s) else (None, s_r s)) as [tag r]. exact W.
Qed.
Lemma used_no_crash K n s l acc ops : used K n s -> known (s_type s) -> is_byte (s_last s) -> good_ivs (w_ivs (s_w s)) ->
  bytes_ok (net_bytes l) -> orderly false false ops -> exists bs s', s_run K (setFd s l acc) ops = Ret (bs, s').
Proof.
  intros U Kn La G B O. destruct (used_idle _ _ _ U) as [I _]. destruct (idle_set s l acc I) as (vs & A1 & A2 & A3 & A4 & A5 & A6 & A7).
  apply (no_crash K ops (setFd s l acc) false false O Kn La).
  - unfold bytes_left. rewrite A5. exact B.
  - intros _. right. right. left. split; [exact A1|]. rewrite A5. reflexivity.
  - intros _. right. right. left. split; [exact A2|]. split; [exact A4|]. rewrite A7. rewrite A6 in G. split; [reflexivity|exact G].
Qed.
