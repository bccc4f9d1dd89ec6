(** A socket over its life (Model/SocketLife.v). *)
From Verif Require Import Model.Uri Proofs.BytesFacts Proofs.SocketIvFacts.
From Verif Require Export Spec.SocketLifeSpec.
From Coq Require Import Lia.

(** ** The two directions *)
Definition with_w (s : wdts) (q : wsock * bool * Z * bool) : wdts :=
  let '(w, sw, et, wf) := q in
  {| s_type := s_type s; s_lim := s_lim s; s_supp := s_supp s; s_open := s_open s; s_setR := s_setR s; s_setW := sw;
     s_decT := s_decT s; s_encT := et; s_rk := s_rk s; s_wk := s_wk s; s_last := s_last s; s_r := s_r s; s_w := w;
     s_rfin := s_rfin s; s_wfin := wf; s_closed := s_closed s |}.
Definition wpart (s : wdts) : wsock * bool * Z * bool := (s_w s, s_setW s, s_encT s, s_wfin s).
Lemma with_wpart s : with_w s (wpart s) = s. Proof. destruct s; reflexivity. Qed.
Lemma with_with s p q : with_w (with_w s p) q = with_w s q.
Proof. destruct p as [[[? ?] ?] ?], q as [[[? ?] ?] ?]. reflexivity. Qed.
Definition also (q : wsock * bool * Z * bool) (x : list Z * wdts) : outcome (list Z * wdts) := let '(bs, s1) := x in Ret (bs, with_w s1 q).

Lemma body_with_w s q : settings_body (with_w s q) = obind (settings_body s) (fun s1 => Ret (with_w s1 q)).
Proof.
  destruct q as [[[w sw] et] wf]. destruct s as [ty0 lim sup op sr sw0 dt et0 rk wk la r0 w0 rf wf0 cl]. unfold settings_body, with_w, put_r, put_rk, r_fail, startDec.
  cbn [s_r s_type s_last s_lim s_supp s_open s_setR s_setW s_decT s_encT s_rk s_wk s_w s_rfin s_wfin s_closed].
  destruct (readInternal r0 _ true) as [x r2]. cbn [s_r s_type s_last s_lim s_supp s_open s_setR s_setW s_decT s_encT s_rk s_wk s_w s_rfin s_wfin s_closed]. destruct (negb (zlen x =? _)); [reflexivity|].
  destruct (decode_at decodeEncryptionSettings (x ++ [la]) 0 _) as [d| |]; [|reflexivity|reflexivity].
  cbn [obind]. destruct d as [[[[ty iv] k] pos]|]; [|reflexivity].
  destruct (negb (ty =? ty0)); [reflexivity|]. destruct (k <? 0); [reflexivity|].
  destruct ((0 <? k) && (tagLen ty =? 0)); [reflexivity|]. destruct (negb (zlen iv =? kAESBlockSize)); reflexivity.
Qed.
Lemma once_with_w s q : readSettingsOnce (with_w s q) = obind (readSettingsOnce s) (fun x => Ret (with_w (fst x) q, snd x)).
Proof.
  unfold readSettingsOnce. replace (s_type (with_w s q)) with (s_type s) by (destruct q as [[[? ?] ?] ?]; reflexivity).
  replace (s_setR (with_w s q)) with (s_setR s) by (destruct q as [[[? ?] ?] ?]; reflexivity).
  replace (s_r (with_w s q)) with (s_r s) by (destruct q as [[[? ?] ?] ?]; reflexivity).
  destruct ((s_type s =? ENC_NONE) || s_setR s); [reflexivity|].
  destruct (readInternal (s_r s) 1 true) as [b r1].
  assert (P : put_r (with_w s q) r1 = with_w (put_r s r1) q) by (destruct q as [[[? ?] ?] ?]; reflexivity).
  destruct b as [|c b]; [cbn; rewrite P; reflexivity|].
  destruct (negb (c =? ENCRYPTION_CMD)).
  - cbn. rewrite P. destruct q as [[[? ?] ?] ?]; reflexivity.
  - rewrite P, body_with_w. destruct (settings_body (put_r s r1)); reflexivity.
Qed.
Lemma read_with_w K s q n full :
  readWithTimeout K (with_w s q) n full = obind (readWithTimeout K s n full) (also q).
Proof.
  unfold readWithTimeout. destruct (n <=? 0); [reflexivity|].
  assert (Q : forall s, s_r (with_w s q) = s_r s /\ s_supp (with_w s q) = s_supp s /\ s_type (with_w s q) = s_type s /\
    s_decT (with_w s q) = s_decT s /\ r_opts (with_w s q) = r_opts s /\ erase (with_w s q) = with_w (erase s) q /\
    (forall r, put_r (with_w s q) r = with_w (put_r s r) q) /\ (forall e, r_fail (with_w s q) e = with_w (r_fail s e) q)).
  { intros t. destruct q as [[[? ?] ?] ?]. repeat split. }
  destruct (Q s) as (E1 & E2 & E3 & E4 & E5 & E6 & E7 & E8). rewrite E1, E2, E8.
  destruct (negb (r_err (s_r s) =? OK) && negb (r_err (s_r s) =? WDT_TIMEOUT)); [reflexivity|].
  rewrite once_with_w. destruct (readSettingsOnce (r_fail s OK)) as [[s1 c]| |]; [|reflexivity|reflexivity].
  cbn [obind fst snd]. destruct (Q s1) as (F1 & F2 & F3 & F4 & F5 & F6 & F7 & F8). rewrite F1, F3, F4, F5, F8.
  destruct (s_supp s && (r_err (s_r s1) =? UNEXPECTED_CMD_ERROR)).
  - destruct (Q (r_fail s1 OK)) as (_ & _ & _ & _ & _ & G6 & _). rewrite G6.
    destruct (Q (erase (r_fail s1 OK))) as (G1 & _ & _ & _ & _ & _ & G7 & _). rewrite G1.
    destruct (readPlain (s_r (erase (r_fail s1 OK))) (n - 1) full) as [bs r]. cbn. rewrite G7. reflexivity.
  - destruct (negb (r_err (s_r s1) =? OK)); [reflexivity|]. destruct (s_type s1 =? ENC_NONE).
    + destruct (readPlain (s_r s1) n full) as [bs r]. cbn. rewrite F7. reflexivity.
    + destruct (sock_read_call K (r_opts s1) (s_r s1) n full) as [[bs r]| |]; [|reflexivity|reflexivity].
      cbn. rewrite F7. destruct bs; [reflexivity|]. destruct (s_decT s1 =? ENC_NONE); reflexivity.
Qed.
Lemma settingsW_with_w s s' : writeSettingsOnce s = Ret s' -> exists q, s' = with_w s q.
Proof.
  unfold writeSettingsOnce. destruct (_ || _); [intros [= <-]; exists (wpart s); rewrite with_wpart; reflexivity|].
  destruct (negb _); [discriminate|]. destruct (encodeEncryptionSettings _ _ _ _ _ _) as [e| |]; [|discriminate|discriminate].
  cbn [obind]. destruct (writeInternal _ _) as [ok w2]. intros [= <-]. exists (w2, ok, s_type s, s_wfin s). reflexivity.
Qed.
Lemma write_with_w K s bs ok s' : write K s bs = Ret (ok, s') -> exists q, s' = with_w s q.
Proof.
  unfold write. destruct (zlen bs <=? 0); [discriminate|].
  destruct (negb (w_err (s_w s) =? OK)); [intros [= <- <-]; exists (wpart s); rewrite with_wpart; reflexivity|].
  destruct (writeSettingsOnce s) as [s1| |] eqn:E; [|discriminate|discriminate]. apply settingsW_with_w in E. destruct E as (q & ->).
  cbn [obind]. intros H. assert (P : forall w, exists q', put_w (with_w s q) w = with_w s q').
  { intros w. destruct q as [[[w0 a] b] c]. exists (w, a, b, c). reflexivity. }
  destruct (negb _); [injection H as _ <-; eauto|]. destruct (s_type (with_w s q) =? ENC_NONE).
  - destruct (writeInternal (s_w (with_w s q)) bs) as [ok' w]. injection H as _ <-. apply P.
  - destruct (s_encT (with_w s q) =? ENC_NONE); [discriminate|].
    destruct (sock_write K _ _ bs) as [[ok' w]| |]; [|discriminate|discriminate]. injection H as _ <-. apply P.
Qed.
Lemma shutdown_with_w K s ok : exists q, snd (shutdownWrites K s ok) = with_w s q.
Proof.
  unfold shutdownWrites, finalizeWrites.
  destruct (match (if s_encT s =? ENC_AES128_GCM then final_tag K (s_w s) else []) with [] => _ | _ => _ end) as [o w].
  exists (w, s_setW s, ENC_NONE, true). reflexivity.
Qed.

(** The reads among the calls do what they do alone. *)
Lemma run_reads K : forall ops s q bs s', Forall streaming ops -> s_run K (with_w s q) ops = Ret (bs, s') ->
  exists s1 q', reads K s (requests ops) = Ret (bs, s1) /\ s' = with_w s1 q'.
Proof.
  induction ops as [|op ops IH]; intros s q bs s' F H.
  - cbn in H. injection H as <- <-. exists s, q. split; reflexivity.
  - inversion F as [|? ? F1 F2]; subst. cbn [s_run] in H. destruct op as [n full|b|ok|]; cbn [s_step requests reads] in *.
    + rewrite read_with_w in H. destruct (readWithTimeout K s n full) as [[b s1]| |]; [|discriminate|discriminate].
      cbn [obind also] in H |- *. destruct (s_run K (with_w s1 q) ops) as [[more s2]| |] eqn:E; [|discriminate|discriminate].
      cbn [obind] in H. injection H as <- <-. destruct (IH _ _ _ _ F2 E) as (s3 & q' & -> & ->). cbn [obind]. eauto.
    + destruct (write K (with_w s q) b) as [[ok s1]| |] eqn:E; [|discriminate|discriminate]. cbn [obind snd] in H.
      apply write_with_w in E. destruct E as (q1 & ->). rewrite with_with in H.
      destruct (s_run K (with_w s q1) ops) as [[more s2]| |] eqn:E; [|discriminate|discriminate]. cbn [obind app] in H. injection H as <- <-.
      eapply IH; eauto.
    + destruct (shutdown_with_w K (with_w s q) ok) as (q1 & Eq). rewrite Eq, with_with in H. cbn [obind] in H.
      destruct (s_run K (with_w s q1) ops) as [[more s2]| |] eqn:E; [|discriminate|discriminate]. cbn [obind app] in H. injection H as <- <-.
      eapply IH; eauto.
    + destruct F1.
Qed.

(** ** From one connection to the next *)
(** A socket without connection: nothing is left of earlier ones but the IVs drawn. *)
Definition idle (s : wdts) : Prop :=
  s_open s = false /\ s_setR s = false /\ s_setW s = false /\ s_decT s = ENC_NONE /\ s_encT s = ENC_NONE /\
  s_r s = rsock0 iv0 [] /\ (exists ivs, s_w s = wsock0 iv0 ivs []) /\ s_rfin s = false /\ s_wfin s = false.
Ltac dpair := match goal with |- context [match ?x with (_, _) => _ end] => destruct x end.
Ltac dpairH H := match type of H with context [match ?x with (_, _) => _ end] => destruct x end.
(** What no call changes. *)
Definition kept (s s' : wdts) : Prop :=
  s_open s' = s_open s /\ s_closed s' = s_closed s /\ s_lim s' = s_lim s /\ s_supp s' = s_supp s /\ s_wk s' = s_wk s /\
  s_last s' = s_last s /\ (s_type s' = s_type s \/ s_supp s = true /\ s_type s' = ENC_NONE).
Lemma kept_refl s : kept s s. Proof. repeat split; auto. Qed.
Lemma kept_trans a b c : kept a b -> kept b c -> kept a c.
Proof.
  intros (A1 & A2 & A3 & A4 & A5 & A6 & A7) (B1 & B2 & B3 & B4 & B5 & B6 & B7).
  repeat split; try congruence. rewrite A4 in B7. destruct A7 as [A7|[A7 A8]], B7 as [B7|[B7 B8]]; try (right; split; congruence); left; congruence.
Qed.
Lemma kept_with s q : kept s (with_w s q).
Proof. destruct q as [[[? ?] ?] ?]. repeat split; auto. Qed.
Lemma body_kept s s' : settings_body s = Ret s' -> kept s s'.
Proof.
  unfold settings_body. destruct (readInternal _ _ _) as [x r]. destruct (negb (zlen x =? _)); [intros [= <-]; repeat split; auto|].
  destruct (decode_at _ _ _ _) as [d| |]; [|discriminate|discriminate]. cbn [obind]. destruct d as [[[[ty iv] k] pos]|]; [|intros [= <-]; repeat split; auto].
  destruct (negb _); [intros [= <-]; repeat split; auto|]. destruct (k <? 0); [intros [= <-]; repeat split; auto|].
  destruct (_ && _); [intros [= <-]; repeat split; auto|]. destruct (negb _); intros [= <-]; repeat split; auto.
Qed.
Lemma once_kept s s' c : readSettingsOnce s = Ret (s', c) -> kept s s'.
Proof.
  unfold readSettingsOnce. destruct (_ || _); [intros [= <- _]; apply kept_refl|]. destruct (readInternal _ _ _) as [b r].
  destruct b as [|c' b]; [intros [= <- _]; repeat split; auto|]. destruct (negb _); [intros [= <- _]; repeat split; auto|].
  destruct (settings_body _) as [s1| |] eqn:E; [|discriminate|discriminate]. intros [= <- _]. apply body_kept in E. exact E.
Qed.
Lemma read_kept K s n full bs s' : readWithTimeout K s n full = Ret (bs, s') -> kept s s'.
Proof.
  unfold readWithTimeout. destruct (n <=? 0); [discriminate|]. destruct (_ && _); [intros [= _ <-]; apply kept_refl|].
  destruct (readSettingsOnce _) as [[s1 c]| |] eqn:E; [|discriminate|discriminate]. cbn [obind]. apply once_kept in E.
  assert (E' : kept s s1) by exact E. clear E. destruct (s_supp s && _) eqn:D.
  - destruct (readPlain _ _ _) as [x r]. intros [= _ <-]. apply andb_prop in D. destruct D as [D _].
    destruct E' as (A1 & A2 & A3 & A4 & A5 & A6 & A7). repeat split; auto.
  - destruct (negb _); [intros [= _ <-]; exact E'|]. destruct (s_type s1 =? ENC_NONE).
    + destruct (readPlain _ _ _) as [x r]. intros [= _ <-]. exact E'.
    + destruct (sock_read_call _ _ _ _ _) as [[x r]| |]; [|discriminate|discriminate]. cbn [obind].
      destruct x; [intros [= _ <-]; exact E'|]. destruct (s_decT s1 =? ENC_NONE); [discriminate|intros [= _ <-]; exact E'].
Qed.
Lemma fw_kept K s t : kept s (snd (finalizeWrites K s t)) /\ s_type (snd (finalizeWrites K s t)) = s_type s.
Proof.
  unfold finalizeWrites. dpair. cbn. repeat split; auto.
Qed.
Lemma fr_kept K s t : kept s (snd (finalizeReadsIO K s t)) /\ s_type (snd (finalizeReadsIO K s t)) = s_type s.
Proof.
  unfold finalizeReadsIO. dpair. cbn. repeat split; auto.
Qed.
Lemma run_kept K : forall ops s bs s', s_run K s ops = Ret (bs, s') -> kept s s'.
Proof.
  induction ops as [|op ops IH]; intros s bs s' H; cbn [s_run] in H; [injection H as _ <-; apply kept_refl|].
  destruct (s_step K s op) as [[b s1]| |] eqn:E; [|discriminate|discriminate]. cbn [obind] in H.
  destruct (s_run K s1 ops) as [[more s2]| |] eqn:E2; [|discriminate|discriminate]. cbn [obind] in H. injection H as _ <-.
  eapply kept_trans; [|eapply IH, E2]. destruct op as [n full|b'|ok|]; cbn [s_step] in E.
  - eapply read_kept, E.
  - destruct (write K s b') as [[ok s3]| |] eqn:W; [|discriminate|discriminate]. cbn in E. injection E as _ <-.
    apply write_with_w in W. destruct W as (q & ->). apply kept_with.
  - injection E as _ <-. destruct (shutdown_with_w K s ok) as (q & ->). apply kept_with.
  - injection E as _ <-. destruct (fr_kept K s true) as [Q _]. exact Q. 
Qed.
(** Closing. *)
Lemma close_idle K s tagIO ok : s_open s = true ->
  let s' := snd (close K s tagIO ok) in
  idle s' /\ s_closed s' = s_closed s + 1 /\ s_type s' = s_type s /\ s_lim s' = s_lim s /\ s_supp s' = s_supp s /\ s_wk s' = s_wk s /\
  s_last s' = s_last s.
Proof.
  intros O s'. subst s'. unfold close. rewrite O. cbn [negb].
  match goal with |- context [match ?x with (_, _) => _ end] => destruct x as [c1 s1] eqn:E1 end.
  assert (K1 : kept s s1 /\ s_type s1 = s_type s).
  { destruct (s_wfin s); [injection E1 as _ <-; split; [apply kept_refl|reflexivity]|].
    pose proof (fw_kept K s tagIO) as Q. destruct (finalizeWrites K s tagIO) as [c s']. injection E1 as _ <-. exact Q. }
  match goal with |- context [match ?x with (_, _) => _ end] => destruct x as [c2 s2] eqn:E2 end.
  assert (K2 : kept s1 s2 /\ s_type s2 = s_type s1).
  { destruct (s_rfin s1); [injection E2 as _ <-; split; [apply kept_refl|reflexivity]|].
    pose proof (fr_kept K s1 tagIO) as Q. destruct (finalizeReadsIO K s1 tagIO) as [c s']. injection E2 as _ <-. exact Q. }
  destruct K1 as [(A1 & A2 & A3 & A4 & A5 & A6 & _) A7], K2 as [(B1 & B2 & B3 & B4 & B5 & B6 & _) B7]. cbn.
  split; [repeat split; exists (w_ivs (s_w s2)); reflexivity|]. rewrite B2, A2, B7, A7, B3, A3, B4, A4, B5, A5, B6, A6. auto 10.
Qed.
Lemma used_idle K n s : used K n s -> idle s /\ s_closed s = n.
Proof.
  induction 1 as [ty lim supp k last ivs|n s l acc ops bs s' tagIO ok U IH R].
  - repeat split. exists ivs. reflexivity.
  - destruct IH as [I E]. apply run_kept in R. destruct R as (A1 & A2 & _).
    destruct (close_idle K s' tagIO ok) as (B1 & B2 & _); [rewrite A1; reflexivity|].
    split; [exact B1|]. rewrite B2, A2. cbn. lia.
Qed.
Lemma idle_set s l acc : idle s -> exists ivs, let s0 := setFd s l acc in
  s_setR s0 = false /\ s_setW s0 = false /\ s_decT s0 = ENC_NONE /\ s_encT s0 = ENC_NONE /\
  s_r s0 = rsock0 iv0 l /\ s_w s = wsock0 iv0 ivs [] /\ s_w s0 = wsock0 iv0 ivs acc.
Proof.
  intros (I1 & I2 & I3 & I4 & I5 & I6 & (ivs & I7) & I8 & I9). exists ivs. unfold setFd. cbn.
  rewrite I2, I3, I4, I5, I6, I7. repeat split.
Qed.
(** A key that was erased stays erased, on all later connections. *)
Inductive follows (K : cipher) : wdts -> wdts -> Prop :=
| fol_refl s : follows K s s
| fol_next s s1 l acc ops bs s2 tagIO ok :
    follows K s s1 -> s_run K (setFd s1 l acc) ops = Ret (bs, s2) -> follows K s (snd (close K s2 tagIO ok)).
Lemma erased_forever K s s' : follows K s s' -> s_type s = ENC_NONE -> s_type s' = ENC_NONE.
Proof.
  induction 1 as [s|s s1 l acc ops bs s2 tagIO ok F IH R]; intros E; [exact E|]. specialize (IH E). apply run_kept in R.
  destruct R as (A1 & _ & _ & _ & _ & _ & A7).
  destruct (close_idle K s2 tagIO ok) as (_ & _ & B & _); [rewrite A1; reflexivity|]. rewrite B.
  destruct A7 as [A7|[_ A7]]; [rewrite A7; exact IH|exact A7].
Qed.

(** ** Reading *)
Lemma read_after K s n full : 0 < n -> s_setR s = true -> s_type s <> ENC_NONE -> s_decT s <> ENC_NONE ->
  readWithTimeout K s n full = obind (sock_read_call K (r_opts s) (s_r s) n full) (fun y => let '(bs, r) := y in Ret (bs, put_r s r)).
Proof.
  intros N S T D. unfold readWithTimeout, sock_read_call. destruct (Z.leb_spec n 0) as [N0|_]; [lia|].
  destruct (negb (r_err (s_r s) =? OK) && negb (r_err (s_r s) =? WDT_TIMEOUT)) eqn:L.
  - cbn [obind]. destruct s; reflexivity.
  - unfold readSettingsOnce. cbn [r_fail put_r s_setR s_type]. rewrite S, orb_true_r. cbn [obind].
    change (s_type (r_fail s OK)) with (s_type s). change (s_decT (r_fail s OK)) with (s_decT s).
    change (r_err (s_r (r_fail s OK))) with OK. rewrite (proj2 (Z.eqb_neq _ _) T), (proj2 (Z.eqb_neq _ _) D).
    change (OK =? UNEXPECTED_CMD_ERROR) with false. change (OK =? OK) with true. rewrite andb_false_r. cbn [negb].
    unfold sock_read_call. destruct (Z.leb_spec n 0) as [N0|_]; [lia|]. cbn [r_fail put_r s_r r_set r_err r_in r_dec r_total r_tags r_starts].
    change (OK =? OK) with true. cbn [negb andb]. unfold r_opts, r_fail. cbn [put_r s_rk s_lim s_decT].
    destruct (if _ <=? 0 then _ else _) as [[bs r]| |]; [|reflexivity|reflexivity]. cbn [obind].
    destruct bs; reflexivity.
Qed.
Lemma reads_after K : forall l s, Forall (fun q => 0 < fst q) l -> s_setR s = true -> s_type s <> ENC_NONE -> s_decT s <> ENC_NONE ->
  reads K s l = obind (sock_reads K (r_opts s) (s_r s) l) (fun y => let '(bs, r) := y in Ret (bs, put_r s r)).
Proof.
  induction l as [|[n full] l IH]; intros s F S T D; cbn [reads sock_reads].
  - cbn [obind]. destruct s; reflexivity.
  - inversion F as [|? ? F1 F2]; subst. cbn [fst] in F1. rewrite read_after by assumption.
    destruct (sock_read_call K (r_opts s) (s_r s) n full) as [[bs r]| |]; [|reflexivity|reflexivity]. cbn [obind].
    rewrite IH by assumption. cbn [put_r s_r r_opts s_rk s_lim]. change (r_opts (put_r s r)) with (r_opts s).
    destruct (sock_reads K (r_opts s) r l) as [[more r2]| |]; reflexivity.
Qed.
Lemma reads_dead K l : forall s, ~ live (r_err (s_r s)) -> Forall (fun q => 0 < fst q) l -> reads K s l = Ret ([], s).
Proof.
  induction l as [|[n full] l IH]; intros s D F; cbn [reads]; [reflexivity|]. inversion F as [|? ? F1 F2]; subst. cbn [fst] in F1.
  unfold readWithTimeout at 1. destruct (Z.leb_spec n 0) as [N0|_]; [lia|].
  assert (X : negb (r_err (s_r s) =? OK) && negb (r_err (s_r s) =? WDT_TIMEOUT) = true).
  { destruct (Z.eqb_spec (r_err (s_r s)) OK) as [E|_]; [destruct D; left; exact E|].
    destruct (Z.eqb_spec (r_err (s_r s)) WDT_TIMEOUT) as [E|_]; [destruct D; right; exact E|reflexivity]. }
  rewrite X. cbn [obind]. rewrite IH by assumption. reflexivity.
Qed.
Lemma readPlain_net r n full : exists bs r', readPlain r n full = (bs, r') /\ net_bytes (r_in r) = bs ++ net_bytes (r_in r').
Proof.
  unfold readPlain. destruct (Z.leb_spec n 0) as [N|N]; [exists [], (r_set r SOCKET_READ_ERROR (r_in r)); split; reflexivity|].
  destruct (readInternal_ok r n full 0 N) as (x & r' & T1 & E & _ & _ & _ & _ & B & _). exists x, r'. auto.
Qed.
Lemma reads_plain K : forall l s bs s', s_type s = ENC_NONE -> reads K s l = Ret (bs, s') ->
  s_type s' = ENC_NONE /\ net_bytes (r_in (s_r s)) = bs ++ net_bytes (r_in (s_r s')).
Proof.
  induction l as [|[n full] l IH]; intros s bs s' T H; cbn [reads] in H; [injection H as <- <-; auto|].
  destruct (readWithTimeout K s n full) as [[b s1]| |] eqn:E; [|discriminate|discriminate]. cbn [obind] in H.
  destruct (reads K s1 l) as [[more s2]| |] eqn:R; [|discriminate|discriminate]. cbn [obind] in H. injection H as <- <-.
  assert (Q : s_type s1 = ENC_NONE /\ net_bytes (r_in (s_r s)) = b ++ net_bytes (r_in (s_r s1))).
  { unfold readWithTimeout in E. destruct (n <=? 0); [discriminate|]. destruct (_ && _); [injection E as <- <-; auto|].
    unfold readSettingsOnce in E. change (s_type (r_fail s OK)) with (s_type s) in E. rewrite T in E. cbn [orb obind Z.eqb ENC_NONE] in E.
    change (0 =? 0) with true in E. cbn [orb obind] in E. change (r_err (s_r (r_fail s OK))) with OK in E.
    change (OK =? UNEXPECTED_CMD_ERROR) with false in E. rewrite andb_false_r in E. change (negb (OK =? OK)) with false in E.
    change (s_type (r_fail s OK)) with (s_type s) in E. rewrite T in E. change (ENC_NONE =? ENC_NONE) with true in E. cbn iota in E.
    destruct (readPlain_net (s_r (r_fail s OK)) n full) as (x & r & P & B). rewrite P in E. injection E as <- <-. split; [exact T|exact B]. }
  destruct Q as [Q1 Q2]. destruct (IH _ _ _ Q1 R) as [I1 I2]. split; [exact I1|]. rewrite Q2, I2, app_assoc. reflexivity.
Qed.

Lemma gcm_tag ty : tagLen ty <> 0 -> ty = ENC_AES128_GCM.
Proof. unfold tagLen. destruct (Z.eqb_spec ty ENC_AES128_GCM) as [E|E]; [auto|intros H; destruct H; reflexivity]. Qed.
Lemma body_cases s s' : settings_body s = Ret s' ->
  (~ live (r_err (s_r s')) /\ r_err (s_r s') <> UNEXPECTED_CMD_ERROR) \/
  exists x r2 iv k, net_bytes (r_in (s_r s)) = x ++ net_bytes (r_in r2) /\ zlen x = 22 /\ says x (s_last s) (s_type s) iv k /\
    zlen iv = 16 /\ 0 <= k /\ (0 < k -> s_type s = ENC_AES128_GCM) /\ r_err r2 = OK /\ r_total r2 = r_total (s_r s) /\
    s' = startDec (put_rk (put_r s r2) k) iv.
Proof.
  unfold settings_body. intros H.
  destruct (readInternal_ok (s_r s) (kEncryptionCmdLen - 1) true 0 ltac:(reflexivity)) as (x & r2 & T1 & E & _ & TT & _ & _ & B & _ & _ & _ & _ & O & _).
  rewrite E in H. assert (D : forall s e, e = SOCKET_READ_ERROR \/ e = PROTOCOL_ERROR \/ e = ENCRYPTION_ERROR ->
    ~ live (r_err (s_r (r_fail s e))) /\ r_err (s_r (r_fail s e)) <> UNEXPECTED_CMD_ERROR).
  { intros t e He. cbn. unfold live. split; [intros [X|X]|intros X]; subst; destruct He as [He|[He|He]]; discriminate He. }
  destruct (Z.eqb_spec (zlen x) (kEncryptionCmdLen - 1)) as [L|L]; cbn [negb] in H; [|injection H as <-; left; apply D; auto].
  destruct (decode_at decodeEncryptionSettings _ _ _) as [d| |] eqn:Dc; [|discriminate|discriminate]. cbn [obind] in H.
  destruct d as [[[[ty iv] k] pos]|]; [|injection H as <-; left; apply D; auto].
  destruct (Z.eqb_spec ty (s_type s)) as [Ty|Ty]; cbn [negb] in H; [|injection H as <-; left; apply D; auto].
  destruct (Z.ltb_spec k 0) as [K0|K0]; [injection H as <-; left; apply D; auto|].
  destruct ((0 <? k) && (tagLen ty =? 0)) eqn:G; [injection H as <-; left; apply D; auto|].
  destruct (Z.eqb_spec (zlen iv) kAESBlockSize) as [I|I]; cbn [negb] in H; [|injection H as <-; left; apply D; auto].
  injection H as <-. right. exists x, r2, iv, k. split; [exact B|]. split; [exact L|]. split; [exists pos; rewrite <- Ty; exact Dc|].
  split; [exact I|]. split; [lia|]. split.
  { intros Kp. rewrite <- Ty. apply gcm_tag. apply andb_false_iff in G. destruct G as [G|G]; [apply Z.ltb_ge in G; lia|]. apply Z.eqb_neq, G. }
  split; [apply O; intros ->; discriminate L|]. split; [exact TT|]. reflexivity.
Qed.

Definition fresh (s : wdts) : Prop := s_setR s = false /\ s_decT s = ENC_NONE /\ r_total (s_r s) = 0 /\ live (r_err (s_r s)).
(** What the reads of a connection may deliver. *)
Lemma reads_accept K : forall l s bs s',
  Forall (fun q => 0 < fst q) l -> fresh s -> s_type s <> ENC_NONE -> reads K s l = Ret (bs, s') ->
  bs = [] \/
  (exists lost extra st, protected K (s_type s) (s_lim s) (s_last s) (net_bytes (r_in (s_r s))) bs lost extra (net_bytes (r_in (s_r s'))) st /\
     s_type s' = s_type s /\ s_decT s' = s_type s /\ (live (r_err (s_r s')) -> extra = [] /\ lost = [] /\ rel (s_r s') st)) \/
  (s_supp s = true /\ s_type s' = ENC_NONE /\ (forall c t, bs = c :: t -> c <> ENCRYPTION_CMD) /\
     net_bytes (r_in (s_r s)) = bs ++ net_bytes (r_in (s_r s'))).
Proof.
  induction l as [|[n full] l IH]; intros s bs s' F (F1 & F2 & F3 & F4) T H; cbn [reads] in H; [injection H as <- _; auto|].
  inversion F as [|? ? N F']; subst. cbn [fst] in N.
  destruct (readWithTimeout K s n full) as [[b s1]| |] eqn:E; [|discriminate|discriminate]. cbn [obind] in H.
  destruct (reads K s1 l) as [[more s2]| |] eqn:R; [|discriminate|discriminate]. cbn [obind] in H. injection H as <- <-.
  pose proof E as E0. unfold readWithTimeout in E. destruct (Z.leb_spec n 0) as [N0|_]; [lia|].
  assert (L : negb (r_err (s_r s) =? OK) && negb (r_err (s_r s) =? WDT_TIMEOUT) = false).
  { destruct F4 as [F4|F4]; rewrite F4; reflexivity. }
  rewrite L in E. unfold readSettingsOnce in E. change (s_type (r_fail s OK)) with (s_type s) in E. change (s_setR (r_fail s OK)) with (s_setR s) in E.
  rewrite F1, (proj2 (Z.eqb_neq _ _) T) in E. cbn [orb] in E.
  destruct (readInternal_ok (s_r (r_fail s OK)) 1 true 0 ltac:(lia)) as (x & r1 & T1 & Ei & D1 & TT & _ & _ & B & Lx & _ & _ & _ & O1 & O2).
  change (r_in (s_r (r_fail s OK))) with (r_in (s_r s)) in B. change (r_total (s_r (r_fail s OK))) with (r_total (s_r s)) in TT.
  rewrite Ei in E. assert (Sup : s_supp (put_r (r_fail s OK) r1) = s_supp s) by reflexivity.
  assert (DEAD : forall e, e <> OK -> e <> UNEXPECTED_CMD_ERROR -> ~ live e -> r_err (s_r s1) = e -> more = []).
  { intros e _ _ De He. rewrite reads_dead in R by (try rewrite He; assumption). injection R as <- _. reflexivity. }
  destruct x as [|c x].
  - cbn [obind] in E. change (s_r (put_r (r_fail s OK) r1)) with r1 in E.
    assert (Y : b = [] /\ s1 = put_r (r_fail s OK) r1).
    { destruct (O2 eq_refl) as [[Er _]|[Er _]]; rewrite Er in E.
      - change (WDT_TIMEOUT =? UNEXPECTED_CMD_ERROR) with false in E. rewrite andb_false_r in E. change (negb (WDT_TIMEOUT =? OK)) with true in E.
        injection E as <- <-. auto.
      - change (SOCKET_READ_ERROR =? UNEXPECTED_CMD_ERROR) with false in E. rewrite andb_false_r in E. change (negb (SOCKET_READ_ERROR =? OK)) with true in E.
        injection E as <- <-. auto. }
    destruct Y as [-> ->]. cbn [app]. cbn [app] in B. destruct (O2 eq_refl) as [[Er _]|[Er _]].
    + assert (Fr : fresh (put_r (r_fail s OK) r1)).
      { split; [exact F1|split; [exact F2|split; [change (r_total r1 = 0); rewrite TT; exact F3|right; exact Er]]]. }
      destruct (IH _ _ _ F' Fr T R) as [Q|[Q|Q]].
      * left. exact Q.
      * right. left. cbn [s_type s_lim s_last s_r put_r r_fail] in Q. rewrite <- B in Q. exact Q.
      * right. right. cbn [s_type s_lim s_last s_r put_r r_fail s_supp] in Q. rewrite <- B in Q. exact Q.
    + left. eapply (DEAD SOCKET_READ_ERROR); [discriminate|discriminate|exact not_live_sock|exact Er].
  - assert (Ec : x = []).
    { destruct x as [|y x]; [reflexivity|]. unfold zlen in Lx. cbn [length] in Lx. lia. }
    subst x. destruct (Z.eqb_spec c ENCRYPTION_CMD) as [C|C]; cbn [negb] in E.
    + destruct (settings_body (put_r (r_fail s OK) r1)) as [s3| |] eqn:SB; [|discriminate|discriminate]. cbn [obind] in E.
      destruct (body_cases _ _ SB) as [[D3 U3]|(x & r2 & iv & k & B2 & Lx2 & Sy & Iv & Kn & Kg & Er & Tt & ->)].
      * rewrite (proj2 (Z.eqb_neq _ _) U3), andb_false_r in E.
        assert (Nok : (r_err (s_r s3) =? OK) = false) by (apply Z.eqb_neq; intros X; apply D3; left; exact X).
        rewrite Nok in E. cbn [negb] in E. injection E as <- <-. left. cbn [app]. rewrite reads_dead in R by assumption.
        injection R as <- _. reflexivity.
      * set (s3 := startDec (put_rk (put_r (put_r (r_fail s OK) r1) r2) k) iv) in *. right. left.
        assert (Ee : r_err (s_r s3) = OK) by exact Er. rewrite Ee in E. change (OK =? UNEXPECTED_CMD_ERROR) with false in E.
        rewrite andb_false_r in E. change (negb (OK =? OK)) with false in E. cbn iota in E.
        change (s_type s3) with (s_type s) in E. rewrite (proj2 (Z.eqb_neq _ _) T) in E.
        assert (Pos : 0 <= so_k (r_opts s3)) by exact Kn.
        assert (Rel : rel (s_r s3) (pst0 iv [])).
        { split; [reflexivity|]. split; [|cbn; lia]. change (r_total r2 = 0). rewrite Tt. change (r_total r1 = 0). rewrite TT. exact F3. }
        change (s_decT s3) with (s_type s) in E. rewrite (proj2 (Z.eqb_neq _ _) T) in E.
        assert (Whole : reads K s3 ((n, full) :: l) = Ret (b ++ more, s2)).
        { cbn [reads]. rewrite read_after; [|exact N|reflexivity|exact T|exact T].
          destruct (sock_read_call K (r_opts s3) (s_r s3) n full) as [[b' r']| |]; [|discriminate|discriminate].
          cbn [obind] in E |- *. assert (Y : b' = b /\ put_r s3 r' = s1) by (destruct b'; injection E as <- <-; auto). destruct Y as [-> ->].
          rewrite R. reflexivity. }
        rewrite reads_after in Whole; [|exact F|reflexivity|exact T|exact T].
        destruct (sock_reads_taken K (r_opts s3) ((n, full) :: l) (s_r s3) (pst0 iv []) false Pos F (or_introl Ee) Rel ltac:(discriminate))
          as (bs & r' & Rd & w & extra & lost & st & f & Nb & Tk & Lv).
        rewrite Rd in Whole. cbn [obind] in Whole. injection Whole as Hb Hs. rewrite <- Hb, <- Hs.
        exists lost, extra, st. split; [|split; [reflexivity|split; [reflexivity|exact Lv]]].
        exists x, iv, k, w, f. split.
        { rewrite B, C. cbn [app]. f_equal. change (r_in (s_r (put_r (r_fail s OK) r1))) with (r_in r1) in B2. rewrite B2.
          change (r_in (s_r s3)) with (r_in r2) in Nb. rewrite Nb. reflexivity. }
        split; [exact Lx2|]. split; [exact Sy|]. split; [exact Iv|]. split; [exact Kn|]. split; [exact Kg|exact Tk].
    + cbn [obind] in E. change (r_err (s_r (r_fail (put_r (r_fail s OK) r1) UNEXPECTED_CMD_ERROR))) with UNEXPECTED_CMD_ERROR in E.
      change (UNEXPECTED_CMD_ERROR =? UNEXPECTED_CMD_ERROR) with true in E. rewrite andb_true_r in E. destruct (s_supp s) eqn:Sp.
      * right. right. destruct (readPlain_net (s_r (erase (r_fail (r_fail (put_r (r_fail s OK) r1) UNEXPECTED_CMD_ERROR) OK))) (n - 1) full) as (y & r & P & B3).
        rewrite P in E. injection E as <- <-. cbn in B3. apply reads_plain in R; [|reflexivity]. destruct R as [G1 G2]. cbn in G2.
        split; [reflexivity|]. split; [exact G1|]. split; [intros c' t [= <- _]; exact C|].
        rewrite B. cbn [app]. rewrite B3, G2, app_assoc. reflexivity.
      * change (negb (UNEXPECTED_CMD_ERROR =? OK)) with true in E. injection E as <- <-. left. cbn [app].
        rewrite reads_dead in R; [injection R as <- _; reflexivity| |exact F']. cbn. unfold live. intros [X|X]; discriminate X.
Qed.

Lemma idle_fresh s l acc : idle s -> fresh (setFd s l acc).
Proof.
  intros I. destruct (idle_set s l acc I) as (ivs & A1 & _ & A3 & _ & A5 & _). split; [exact A1|]. split; [exact A3|]. rewrite A5.
  split; [reflexivity|left; reflexivity].
Qed.
Lemma requests_pos ops : Forall streaming ops -> Forall (fun q => 0 < fst q) (requests ops).
Proof. induction 1 as [|op ops S F IH]; [constructor|]. destruct op; cbn; auto. Qed.

Lemma accepted K n s l acc ops bs s' :
  used K n s -> s_type s <> ENC_NONE -> Forall streaming ops -> s_run K (setFd s l acc) ops = Ret (bs, s') ->
  bs = [] \/
  (exists lost extra st, protected K (s_type s) (s_lim s) (s_last s) (net_bytes l) bs lost extra (net_bytes (r_in (s_r s'))) st /\
     s_type s' = s_type s /\ s_decT s' = s_type s /\
     (r_err (s_r s') = OK \/ r_err (s_r s') = WDT_TIMEOUT -> extra = [] /\ lost = [] /\ rel (s_r s') st)) \/
  (s_supp s = true /\ s_type s' = ENC_NONE /\ (forall c t, bs = c :: t -> c <> ENCRYPTION_CMD) /\
     net_bytes l = bs ++ net_bytes (r_in (s_r s'))).
Proof.
  intros U T F R. destruct (used_idle _ _ _ U) as [I _]. pose proof (idle_fresh s l acc I) as Fr.
  rewrite <- (with_wpart (setFd s l acc)) in R. apply run_reads in R; [|exact F]. destruct R as (s1 & q & R & ->).
  apply reads_accept in R; [|apply requests_pos, F|exact Fr|exact T].
  destruct q as [[[qa qb] qc] qd]. exact R.
Qed.
Lemma accepted_end K n s l acc ops bs s' :
  used K n s -> s_type s = ENC_AES128_GCM -> Forall streaming ops -> s_run K (setFd s l acc) ops = Ret (bs, s') ->
  bs <> [] -> r_err (s_r s') = OK \/ r_err (s_r s') = WDT_TIMEOUT -> s_type s' <> ENC_NONE ->
  fst (expectEndOfStream K s') = OK ->
  exists st rest, protected K (s_type s) (s_lim s) (s_last s) (net_bytes l) bs [] [] (tagf K (x_iv st) (x_c st) ++ rest) st.
Proof.
  intros U T F R B L T' E. destruct (accepted _ _ _ _ _ _ _ _ U ltac:(rewrite T; discriminate) F R) as [Q|[Q|(_ & Q & _)]]; [contradiction| |contradiction].
  destruct Q as (lost & extra & st & P & T1 & D1 & Lv). destruct (Lv L) as (-> & -> & (Rel & _)). exists st.
  unfold expectEndOfStream, finalizeReadsIO in E. rewrite T1, T in E. cbn [tagLen ENC_AES128_GCM Z.eqb negb andb] in E.
  change (tagLen ENC_AES128_GCM =? 0) with false in E. cbn [negb andb] in E. unfold readEncryptionTag in E.
  destruct (readInternal_ok (s_r s') 16 true 0 ltac:(lia)) as (x & r & T2 & Ei & Dr & _ & _ & _ & Nb & _). rewrite Ei in E.
  destruct (Z.eqb_spec (zlen x) 16) as [Lx|Lx].
  - unfold decFinish in E. change (s_decT (put_r s' r)) with (s_decT s') in E. rewrite D1, T in E. change (ENC_AES128_GCM =? ENC_AES128_GCM) with true in E.
    cbn iota in E. change (s_r (put_r s' r)) with r in E. destruct (tag_ok K (r_dec r) x) eqn:Tk; [|discriminate E].
    apply tag_ok_spec in Tk. rewrite Dr, Rel in Tk. cbn in Tk. exists (net_bytes (r_in r)). rewrite <- Tk, <- Nb. rewrite T in P |- *. exact P.
  - cbn [fst] in E. destruct (decFinish _ _ _) in E; discriminate E.
Qed.

(** The codes of closing and shutting down. *)
Lemma shutdown_code K s ok : fst (shutdownWrites K s ok) = OK <-> ok = true /\ fst (finalizeWrites K s true) = OK.
Proof.
  unfold shutdownWrites. destruct (finalizeWrites K s true) as [c s1]. cbn [fst]. destruct ok.
  - split; [intros H; split; [reflexivity|exact H]|intros [_ H]; exact H].
  - split; [|intros [H _]; discriminate]. destruct (c =? OK) eqn:E; [discriminate|]. apply Z.eqb_neq in E. congruence.
Qed.
Lemma close_code K s tagIO ok : s_open s = true -> s_wfin s = true -> s_rfin s = true ->
  0 <= r_err (s_r s) -> 0 <= w_err (s_w s) ->
  (fst (close K s tagIO ok) = OK <->
   ok = true /\ In (r_err (s_r s)) [OK; SOCKET_READ_ERROR; WDT_TIMEOUT; ENCRYPTION_ERROR] /\
   In (w_err (s_w s)) [OK; SOCKET_WRITE_ERROR; ENCRYPTION_ERROR]).
Proof.
  intros Ho Hw Hr Pr Pw. unfold close. rewrite Ho, Hw. cbn [negb]. rewrite Hr. cbn [fst].
  unfold getNonRetryableErrCode, getMoreInterestingError.
  generalize dependent (r_err (s_r s)). intros re Pr. generalize dependent (w_err (s_w s)). intros we Pw.
  cbn [In]. unfold OK, SOCKET_READ_ERROR, WDT_TIMEOUT, ENCRYPTION_ERROR, SOCKET_WRITE_ERROR, ERROR in *.
  repeat match goal with |- context [?a =? ?b] => destruct (Z.eqb_spec a b) end; cbn [negb andb]; destruct ok; try lia;
    split; intros; try lia; repeat split; try lia; try (intuition (congruence || lia)).
Qed.
