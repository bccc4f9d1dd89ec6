(** Where the IV changes (Model/Socket.v), the whole stream, and small witnesses. *)
From Verif Require Export Proofs.SocketReadFacts.
From Verif Require Import Proofs.BytesFacts.

Section Iv.
Variables (K : cipher) (o : sopts).
Hypothesis KP : 0 < so_k o.
Hypothesis LP : so_k o <= so_lim o.
Let P := so_k o * (so_lim o / so_k o).

Lemma period_pos : so_k o <= P <= so_lim o /\ so_lim o < P + so_k o.
Proof.
  unfold P. pose proof (Z.div_mod (so_lim o) (so_k o) ltac:(lia)). pose proof (Z.mod_pos_bound (so_lim o) (so_k o) KP).
  assert (1 <= so_lim o / so_k o) by (apply Z.div_le_lower_bound; lia). nia.
Qed.
Definition fill (p : Z) : Z := if p =? 0 then 0 else (p - 1) mod P + 1.
Lemma fill_due p : 0 < p -> p mod so_k o = 0 ->
  (p mod P = 0 -> fill p = P) /\ (p mod P <> 0 -> fill p = p mod P /\ fill p + so_k o <= P).
Proof.
  intros A B. pose proof period_pos as PP. unfold fill. rewrite (proj2 (Z.eqb_neq _ _)) by lia.
  pose proof (Z.div_mod p P ltac:(lia)) as D. pose proof (Z.mod_pos_bound p P ltac:(lia)) as M. split; intros H.
  - replace (p - 1) with ((P - 1) + (p / P - 1) * P) by nia. rewrite Z.mod_add by lia. rewrite Z.mod_small by lia. lia.
  - assert (E : (p - 1) mod P = p mod P - 1).
    { replace (p - 1) with ((p mod P - 1) + (p / P) * P) by nia. rewrite Z.mod_add by lia. apply Z.mod_small. lia. }
    rewrite E. split; [lia|].
    assert (X : (p mod P) mod so_k o = 0).
    { assert (Q : p mod P = p - so_k o * (so_lim o / so_k o * (p / P))) by (unfold P in *; nia). rewrite Q.
      rewrite Zminus_mod, B, Z.mul_comm, Z.mod_mul by lia. reflexivity. }
    pose proof (Z.div_mod (p mod P) (so_k o) ltac:(lia)) as E2. rewrite X in E2. unfold P in M |- *. fold P in M |- *.
    assert (E3 : p mod P / so_k o < so_lim o / so_k o) by (unfold P in M; fold P in M; unfold P in E2, M at 3; nia). unfold P in *. nia.
Qed.
Lemma fill_step p : 0 <= p -> p mod P <> 0 \/ p = 0 -> fill (p + 1) = fill p + 1.
Proof.
  intros A B. pose proof period_pos as PP. unfold fill. rewrite (proj2 (Z.eqb_neq (p + 1) 0)) by lia. replace (p + 1 - 1) with p by lia.
  destruct (Z.eqb_spec p 0) as [->|N]; [rewrite Z.mod_0_l; lia|]. destruct B as [B|B]; [|lia].
  pose proof (Z.mod_pos_bound p P ltac:(lia)) as M. pose proof (Z.div_mod p P ltac:(lia)) as D.
  replace (p - 1) with ((p mod P - 1) + (p / P) * P) by nia. rewrite Z.mod_add by lia. rewrite (Z.mod_small (p mod P - 1)) by lia. lia.
Qed.
Lemma fill_wrap p : 0 < p -> p mod P = 0 -> fill (p + 1) = 1.
Proof. intros A B. unfold fill. rewrite (proj2 (Z.eqb_neq (p + 1) 0)) by lia. replace (p + 1 - 1) with p by lia. rewrite B. reflexivity. Qed.

Lemma change_fill s : 0 <= x_pos s -> zlen (x_c s) = fill (x_pos s) -> due (so_k o) s = true ->
  change o s = (x_pos s mod P =? 0).
Proof.
  intros A B D. pose proof period_pos as PP. apply due_true in D as (_ & D1 & D2). destruct (fill_due (x_pos s) D1 D2) as (F1 & F2).
  unfold change. rewrite (proj2 (Z.eqb_neq (so_lim o) 0)) by lia. cbn [negb andb]. rewrite B.
  destruct (Z.eqb_spec (x_pos s mod P) 0) as [E|E].
  - rewrite (F1 E). apply Z.ltb_lt. lia.
  - destruct (F2 E) as (_ & F3). apply Z.ltb_ge. lia.
Qed.
Lemma not_due_mod s : 0 <= x_pos s -> due (so_k o) s = false -> x_pos s mod P <> 0 \/ x_pos s = 0.
Proof.
  intros A D. destruct (Z.eq_dec (x_pos s) 0) as [E|E]; [auto|left]. intros X. pose proof period_pos as PP.
  assert (Y : due (so_k o) s = true).
  { apply due_true. repeat split; try lia. pose proof (Z.div_mod (x_pos s) P ltac:(lia)) as Z1. rewrite X, Z.add_0_r in Z1. rewrite Z1. unfold P.
    replace (so_k o * (so_lim o / so_k o) * (x_pos s / (so_k o * (so_lim o / so_k o))))
      with ((so_lim o / so_k o * (x_pos s / (so_k o * (so_lim o / so_k o)))) * so_k o) by ring.
    apply Z.mod_mul. lia. }
  congruence.
Qed.
Lemma fill_pnext s b : 0 <= x_pos s -> zlen (x_c s) = fill (x_pos s) ->
  zlen (x_c (pnext K o s b)) = fill (x_pos (pnext K o s b)).
Proof.
  intros A B. unfold pnext, byte_next. cbn [x_c x_pos]. rewrite pos_ready, zlen_app. change (zlen [cbyte K (ready o s) b]) with 1.
  unfold ready, tag_next. destruct (due (so_k o) s) eqn:D.
  - pose proof (change_fill s A B D) as C. apply due_true in D as (_ & D1 & _). rewrite C.
    destruct (Z.eqb_spec (x_pos s mod P) 0) as [E|E]; cbn [x_c].
    + rewrite fill_wrap by assumption. reflexivity.
    + rewrite fill_step, B by auto. reflexivity.
  - rewrite fill_step, B by (auto using not_due_mod). reflexivity.
Qed.
Lemma fill_after p : forall s, 0 <= x_pos s -> zlen (x_c s) = fill (x_pos s) ->
  zlen (x_c (after K o s p)) = fill (x_pos (after K o s p)).
Proof.
  induction p as [|b p IH]; intros s A B; cbn [after]; [exact B|]. apply IH; [|apply fill_pnext; assumption].
  unfold pnext, byte_next. cbn [x_pos]. rewrite pos_ready. lia.
Qed.
Lemma iv_limit iv ivs p : zlen (x_c (after K o (pst0 iv ivs) p)) <= so_lim o.
Proof.
  rewrite fill_after; [|cbn; lia|reflexivity]. pose proof period_pos as PP. unfold fill. destruct (_ =? 0); [lia|].
  pose proof (Z.mod_pos_bound (x_pos (after K o (pst0 iv ivs) p) - 1) P ltac:(lia)). lia.
Qed.
(** The positions of the changes. *)
Lemma changes_spec p : forall s, 0 <= x_pos s -> zlen (x_c s) = fill (x_pos s) -> forall x,
  In x (changes K o s p) <-> x_pos s <= x < x_pos s + zlen p /\ 0 < x /\ x mod P = 0.
Proof.
  pose proof period_pos as PP.
  induction p as [|b p IH]; intros s A B x.
  - cbn [changes]. rewrite zlen_nil. split; [intros []|lia].
  - cbn [changes]. rewrite in_app_iff, (IH (pnext K o s b)), zlen_cons; [|unfold pnext, byte_next; cbn [x_pos]; rewrite pos_ready; lia|apply fill_pnext; assumption].
    assert (Ep : x_pos (pnext K o s b) = x_pos s + 1) by (unfold pnext, byte_next; cbn [x_pos]; rewrite pos_ready; reflexivity). rewrite Ep.
    assert (H : In x (if due (so_k o) s && change o s then [x_pos s] else []) <-> x = x_pos s /\ 0 < x /\ x mod P = 0).
    { destruct (due (so_k o) s) eqn:D.
      - cbn [andb]. rewrite (change_fill s A B D). apply due_true in D as (_ & D1 & _). destruct (Z.eqb_spec (x_pos s mod P) 0) as [E|E].
        + cbn [In]. split; [intros [<-|[]]; auto|intros (-> & _); auto].
        + split; [intros []|intros (-> & _ & Y); congruence].
      - cbn [andb]. split; [intros []|intros (-> & Y1 & Y2)]. destruct (not_due_mod s A D); lia. }
    rewrite H. pose proof (zlen_nonneg p). split.
    + intros [(-> & X1 & X2) | (X1 & X2 & X3)]; repeat split; lia.
    + intros (X1 & X2 & X3). destruct (Z.eq_dec x (x_pos s)); [left|right]; repeat split; lia.
Qed.
Lemma changes_spec0 iv ivs p x :
  In x (changes K o (pst0 iv ivs) p) <-> 0 < x < zlen p /\ x mod P = 0.
Proof. rewrite changes_spec; [|cbn; lia|reflexivity]. cbn [pst0 x_pos]. lia. Qed.
End Iv.

(** ** The whole stream *)
Lemma quiet_0 K o s p T : quiet K o s p T -> quiet_at K o 0 s p T.
Proof. intros Q p1 b p2 t E D I. rewrite Z.add_0_l. eauto. Qed.
Lemma rel0 iv ivs l : rel (rsock0 iv l) (pst0 iv ivs).
Proof. repeat split. cbn. lia. Qed.
Lemma timeouts_none off l : (forall x, In x l -> x <> NTimeout) -> timeouts off l = [].
Proof.
  revert off. induction l as [|[b|] l IH]; intros off H; cbn [timeouts]; [reflexivity| |].
  - apply IH. intros x I. apply H. right. exact I.
  - destruct (H NTimeout (or_introl eq_refl) eq_refl).
Qed.
Lemma timeouts_shift l : forall a b, length (timeouts a l) = length (timeouts b l).
Proof. induction l as [|[x|] l IH]; intros a b; cbn [timeouts length]; auto. Qed.

Lemma finalizeReads_ok K r : finalizeReads K r = OK ->
  exists rest, net_bytes (r_in r) = tagf K (cr_iv (r_dec r)) (cr_c (r_dec r)) ++ rest.
Proof.
  unfold finalizeReads, readEncryptionTag.
  destruct (readInternal_ok r 16 true 0 ltac:(lia)) as (x & r1 & T1 & -> & A1 & A2 & A3 & A4 & A5 & A6 & _).
  destruct (zlen x =? 16); [|discriminate]. destruct (tag_ok K (r_dec r1) x) eqn:T; [|discriminate]. intros _.
  apply tag_ok_spec in T. rewrite A1 in T. rewrite <- T. eauto.
Qed.
Lemma finalizeReads_tag K r off : zlen (tagf K (cr_iv (r_dec r)) (cr_c (r_dec r))) = 16 ->
  net_bytes (r_in r) = tagf K (cr_iv (r_dec r)) (cr_c (r_dec r)) -> timeouts off (r_in r) = [] -> finalizeReads K r = OK.
Proof.
  intros L N T. unfold finalizeReads, readEncryptionTag.
  destruct (readInternal_ok r 16 true off ltac:(lia)) as (x & r1 & T1 & -> & A1 & A2 & A3 & A4 & A5 & A6 & A7 & A8 & A9 & _).
  rewrite T in A7. symmetry in A7. apply app_eq_nil in A7 as (-> & _).
  assert (X : zlen x = 16 /\ x = tagf K (cr_iv (r_dec r)) (cr_c (r_dec r))).
  { rewrite N in A5. destruct (Z.eq_dec (zlen x) 16) as [E|E].
    - split; [exact E|]. rewrite <- (app_nil_r (tagf _ _ _)) in A5. apply app_same_len in A5; [symmetry; apply A5|]. unfold zlen in *. lia.
    - rewrite (A9 eq_refl (or_introl eq_refl)), app_nil_r in A5 by lia. congruence. }
  destruct X as (X1 & X2). rewrite X1. change (16 =? 16) with true. cbv iota. rewrite A1.
  rewrite (proj2 (tag_ok_spec K (r_dec r) x) X2). reflexivity.
Qed.

(** Written in any pieces, read in any pieces. *)
Lemma stream_whole K o iv ivs writes net reqs :
  0 <= so_k o -> good_cipher K -> good_ivs ivs ->
  Forall (fun bs => 0 < zlen bs) writes -> Forall (fun q => 0 < fst q) reqs ->
  let plain := concat writes in
  exists w, sock_writes K o (wsock0 iv ivs []) writes = Ret (true, w) /\ w_out w = wire K o (pst0 iv ivs) plain /\
    w_starts w = changes K o (pst0 iv ivs) plain /\
    (net_bytes net = w_out w ++ final_tag K w ->
     quiet K o (pst0 iv ivs) plain (timeouts 0 net) ->
     (length plain + length (timeouts 0 net) <= length reqs)%nat ->
     exists r, drain K o (rsock0 iv net) reqs (zlen plain) = Ret (plain, r) /\ r_starts r = w_starts w /\
       net_bytes (r_in r) = final_tag K w /\ (timeouts 0 net = [] -> finalizeReads K r = OK)).
Proof.
  intros KP GC GI FW FR plain.
  assert (X : exists w, sock_writes K o (wsock0 iv ivs []) writes = Ret (true, w) /\ wrel o w (after K o (pst0 iv ivs) plain) /\
    w_out w = wire K o (pst0 iv ivs) plain /\ w_starts w = changes K o (pst0 iv ivs) plain).
  { assert (WI : forall w bs, w_acc w = [] -> exists w', writeInternal w bs = (true, w') /\ w_acc w' = []).
    { intros w bs A. unfold writeInternal. rewrite A. eauto. }
    assert (EW : forall w bs, w_acc w = [] -> 0 < zlen bs -> exists w', encryptAndWrite K w bs = Ret (true, w') /\ w_acc w' = []).
    { intros w bs A B. unfold encryptAndWrite. rewrite (proj2 (Z.leb_gt _ _)) by lia. destruct (encrypt K (w_enc w) bs) as [x e].
      edestruct WI as (w' & -> & C); [|eauto]. exact A. }
    assert (WT : forall w s bs, wrel o w s -> 0 < so_k o -> 0 < zlen bs <= so_k o -> w_acc w = [] -> exists w', encryptAndWriteWithTag K o w bs = Ret (true, w') /\ w_acc w' = []).
    { intros w s bs R P L A. pose proof (ewt_ok K o w s bs P L R) as (ok & w' & E & _). unfold encryptAndWriteWithTag in *.
      rewrite (proj2 (Z.leb_gt _ _)) in * by lia. rewrite (proj2 (Z.ltb_ge _ _)) in * by lia. cbn [orb] in *.
      set (nto := computeNextTagOffset (w_total w) (so_k o)) in *.
      assert (RS : forall w1 r, w_acc w1 = [] -> 0 < zlen r -> exists w', obind (encryptAndWrite K w1 r) (fun x => match x with (true, w2) => Ret (true, w_add w2 (zlen r)) | (false, w2) => Ret (false, w2) end) = Ret (true, w') /\ w_acc w' = []).
      { intros w1 r A1 B1. destruct (EW w1 r A1 B1) as (w2 & -> & C). cbn [obind]. eexists; split; [reflexivity|exact C]. }
      destruct (Z.ltb_spec nto (zlen bs)) as [H|H]; [|apply RS; [exact A|lia]].
      assert (P1 : exists w1, (if 0 <? nto then obind (encryptAndWrite K w (firstn (Z.to_nat nto) bs)) (fun x => match x with (true, w2) => Ret (true, w_add w2 nto) | (false, w2) => Ret (false, w2) end) else Ret (true, w)) = Ret (true, w1) /\ w_acc w1 = []).
      { destruct (Z.ltb_spec 0 nto) as [N|N]; [|eauto]. destruct (EW w (firstn (Z.to_nat nto) bs) A) as (w2 & -> & C).
        { rewrite firstn_skipn_len; lia. } cbn [obind]. eexists; split; [reflexivity|exact C]. }
      destruct P1 as (w1 & P1 & A1). rewrite P1 in *. cbn [obind] in *. destruct (negb _); [discriminate|].
      destruct (WI w1 (tagf K (cr_iv (w_enc w1)) (cr_c (w_enc w1))) A1) as (w2 & -> & A2).
      assert (CC : exists w3, checkAndChangeEncryptionIv o w2 = (true, w3) /\ w_acc w3 = []).
      { unfold checkAndChangeEncryptionIv. destruct (so_lim o =? 0); [eauto|]. destruct (_ <=? _); [eauto|]. apply WI. exact A2. }
      destruct CC as (w3 & -> & A3). apply RS; [exact A3|]. rewrite zlen_skipn; lia. }
    assert (WL : forall fuel w s bs, wrel o w s -> 0 < so_k o -> (length bs <= fuel)%nat -> w_acc w = [] -> exists w', write_loop fuel K o w bs = Ret (true, w') /\ w_acc w' = []).
    { induction fuel as [|f IH]; intros w s bs R P L A; destruct bs as [|b bs]; try (eexists; split; [reflexivity|exact A]); [cbn in L; lia|].
      cbn [write_loop]. set (B := b :: bs) in *. assert (0 < zlen B) by (unfold B; rewrite zlen_cons; pose proof (zlen_nonneg bs); lia).
      set (m := Z.min (zlen B) (so_k o)). pose proof (firstn_skipn_len B m ltac:(lia)) as L1.
      destruct (WT w s (firstn (Z.to_nat m) B) R P ltac:(lia) A) as (w1 & E1 & A1).
      pose proof (ewt_ok K o w s (firstn (Z.to_nat m) B) P ltac:(lia) R) as (ok & w1' & E1' & C). rewrite E1 in E1'. injection E1' as <- <-.
      rewrite E1. cbn [obind]. eapply IH; [apply C|exact P| |exact A1]. rewrite skipn_length. lia. }
    assert (G : forall l w s, Forall (fun bs => 0 < zlen bs) l -> wrel o w s -> w_acc w = [] -> exists w', sock_writes K o w l = Ret (true, w')).
    { induction l as [|bs l IH]; intros w s F R A; cbn [sock_writes]; [eauto|]. inversion F as [|? ? P F']; subst.
      assert (S : exists w1, sock_write K o w bs = Ret (true, w1) /\ w_acc w1 = []).
      { unfold sock_write. rewrite (proj2 (Z.leb_gt _ _)) by lia. pose proof R as (_ & _ & _ & -> & _). change (negb (OK =? OK)) with false. cbv iota.
        destruct (Z.leb_spec (so_k o) 0); [apply EW; auto|eapply WL; eauto]. }
      destruct S as (w1 & E1 & A1). pose proof (sock_write_ok K o w s bs P R) as (ok & w1' & E1' & C). rewrite E1 in E1'. injection E1' as <- <-.
      rewrite E1. cbn [obind]. eapply IH; [exact F'|apply C|exact A1]. }
    destruct (G writes (wsock0 iv ivs []) (pst0 iv ivs) FW (wrel0 o iv ivs []) eq_refl) as (w & E).
    destruct (sock_writes_ok K o writes _ _ FW (wrel0 o iv ivs [])) as (ok & w' & E' & C). rewrite E in E'. injection E' as <- <-.
    exists w. destruct C as (C1 & C2 & C3). cbn [wsock0 w_out w_starts app] in C2, C3. auto. }
  destruct X as (w & E & (R1 & _) & O & S). exists w. split; [exact E|]. split; [exact O|]. split; [exact S|].
  intros N Q L. rewrite O in N.
  destruct (drain_ok (final_tag K w) K o reqs (rsock0 iv net) (pst0 iv ivs) plain 0) as (r & D & D1 & D2 & D3 & D4 & D5);
    [exact KP|exact GC|exact GI|exact FR|left; reflexivity|apply rel0|exact N|apply quiet_0; exact Q|exact L|].
  exists r. split; [exact D|]. split; [rewrite D4, S; reflexivity|]. split; [exact D3|].
  intros T. destruct D2 as (D2 & _). destruct (D5 T) as (off & T').
  assert (FT : final_tag K w = tagf K (cr_iv (r_dec r)) (cr_c (r_dec r))) by (unfold final_tag; rewrite R1, D2; reflexivity).
  apply finalizeReads_tag with (off := off); [apply GC|rewrite D3; exact FT|exact T'].
Qed.

Lemma same_starts K o iv ivs writes w net reqs bs r :
  0 <= so_k o -> good_cipher K -> good_ivs ivs ->
  Forall (fun bs => 0 < zlen bs) writes -> Forall (fun q => 0 < fst q) reqs ->
  sock_writes K o (wsock0 iv ivs []) writes = Ret (true, w) ->
  net_bytes net = w_out w ++ final_tag K w ->
  quiet K o (pst0 iv ivs) (concat writes) (timeouts 0 net) ->
  (length (concat writes) + length (timeouts 0 net) <= length reqs)%nat ->
  drain K o (rsock0 iv net) reqs (zlen (concat writes)) = Ret (bs, r) ->
  r_starts r = w_starts w.
Proof.
  intros A B C D E F G H I J. destruct (stream_whole K o iv ivs writes net reqs A B C D E) as (w' & W1 & W2 & W3 & W4).
  rewrite F in W1. injection W1 as <-. destruct (W4 G H I) as (r' & R1 & R2 & _). rewrite J in R1. injection R1 as _ <-. exact R2.
Qed.

(** A writer that may fail. *)
Lemma writes_prefix K o iv ivs acc writes :
  Forall (fun bs => 0 < zlen bs) writes ->
  exists ok w rest, sock_writes K o (wsock0 iv ivs acc) writes = Ret (ok, w) /\
    wire K o (pst0 iv ivs) (concat writes) = w_out w ++ rest /\ (ok = true -> rest = []).
Proof.
  intros F. destruct (sock_writes_ok K o writes _ _ F (wrel0 o iv ivs acc)) as (ok & w & E & C). exists ok, w. destruct ok.
  - destruct C as (_ & C & _). cbn [wsock0 w_out app] in C. exists []. rewrite app_nil_r. auto.
  - destruct C as (_ & rest & C). cbn [wsock0 w_out app] in C. exists rest. split; [exact E|]. split; [exact C|discriminate].
Qed.
Lemma reads_taken K o iv net reqs :
  0 <= so_k o -> Forall (fun q => 0 < fst q) reqs ->
  exists bs r, sock_reads K o (rsock0 iv net) reqs = Ret (bs, r) /\
    exists w extra lost s f, net_bytes net = w ++ extra ++ net_bytes (r_in r) /\
      taken true K o (pst0 iv [], false) w (bs ++ lost) (s, f) /\
      (r_err r = OK \/ r_err r = WDT_TIMEOUT -> extra = [] /\ lost = []).
Proof.
  intros KP F.
  destruct (sock_reads_taken K o reqs (rsock0 iv net) (pst0 iv []) false KP F) as (bs & r & E & w & extra & lost & s & f & A & B & C).
  - left. reflexivity.
  - apply rel0.
  - discriminate.
  - exists bs, r. split; [exact E|]. exists w, extra, lost, s, f. repeat split; auto; apply C; auto.
Qed.
Lemma writer_limit K o iv ivs acc writes :
  0 < so_k o <= so_lim o -> Forall (fun bs => 0 < zlen bs) writes ->
  exists ok w, sock_writes K o (wsock0 iv ivs acc) writes = Ret (ok, w) /\
    (ok = true -> zlen (cr_c (w_enc w)) <= so_lim o /\
       forall x, In x (w_starts w) <-> 0 < x < zlen (concat writes) /\ x mod (so_k o * (so_lim o / so_k o)) = 0).
Proof.
  intros (A & B) F. destruct (sock_writes_ok K o writes _ _ F (wrel0 o iv ivs acc)) as (ok & w & E & C). exists ok, w. split; [exact E|].
  intros ->. destruct C as ((C1 & _) & _ & C3). rewrite C1. cbn [cr_c]. split; [apply iv_limit; assumption|].
  intros x. cbn [wsock0 w_starts app] in C3. rewrite C3. apply changes_spec0; assumption.
Qed.

(** ** Witnesses *)
Definition toy : cipher :=
  {| ks := fun iv i => (i * 7 + hd 0 iv) mod 256; tagf := fun iv c => repeat ((fold_right Z.add (hd 0 iv) c) mod 256) 16 |}.
Lemma toy_good : good_cipher toy.
Proof. intros iv c. cbn [toy tagf]. unfold zlen. rewrite repeat_length. reflexivity. Qed.
Definition iv_a : list Z := repeat 17 16.
Definition iv_b : list Z := repeat 99 16.
