From Verif Require Import Proofs.QueueMonitorFacts Proofs.HistoryFacts Proofs.RecvSessionFacts.
From Verif Require Export Proofs.TransferStep.
From Coq Require Import Lia Permutation.

(** ** The receiver's steps, one port *)

Lemma firstn_In {A} n (l : list A) x : In x (firstn n l) -> In x l.
Proof. intros I. rewrite <- (firstn_skipn n l). apply in_or_app; auto. Qed.

(** The receiver leaves its connection, or moves on without one. *)
Lemma drop_inv P d G hd last clean j p t t' H F ph ch :
  pinv P d G hd last clean j p t H F ph ch -> over (rt_ph t) = false ->
  connected (rt_ph t') = false -> over (rt_ph t') = false -> fresh (rt_ph t') = false ->
  finishing (rt_ph t') = false -> rt_st t' = RRunning ->
  ck_port (rt_ck t') = p -> ck_numBlocks (rt_ck t') = ck_numBlocks (rt_ck t) ->
  (rup ch = [] -> rt_ck t' = rt_ck t) ->
  (rt_unver t' = rt_unver t \/ rt_unver t' = []) ->
  (0 <= ck_lastBlockReceivedBytes (rt_ck t') /\
    forall x, ck_lastBlockOffset (rt_ck t') <= x <
              ck_lastBlockOffset (rt_ck t') + ck_lastBlockReceivedBytes (rt_ck t') ->
              holds d (ck_lastBlockSeqId (rt_ck t')) x) ->
  (tp_mode P <> Plain -> ck_lastBlockReceivedBytes (rt_ck t') = 0) ->
  (rt_idx t' <= length G /\ rt_pend t' <= length G)%nat ->
  (forall c, In c (firstn (rt_idx t') G) -> handled P hd c) ->
  pinv P d G hd last clean j p t' H F ph ch.
Proof.
  intros X Ho C' O' Fr' Fi' St Ep En Eck Eu Pt Np Ip Ih. destruct X.
  assert (Nb : nb t' = nb t) by (unfold nb; rewrite En; reflexivity).
  assert (Cn : (cnt t' <= cnt t)%nat) by (unfold cnt; rewrite Nb; destruct Eu as [-> | ->]; cbn; lia).
  assert (Hh' : held (rt_ph t') = false) by (destruct (rt_ph t'); cbn in *; congruence).
  assert (Wp' : waitp (rt_ph t') = false) by (destruct (rt_ph t'); cbn in *; congruence).
  constructor; rewrite ?Nb, ?En; try assumption; try (intros; congruence).
  - split; [exact Fi'|]. split; intros K; congruence.
  - intros K; rewrite K in C'; discriminate.
  - intros K; rewrite K in C'; discriminate.
  - intros K. destruct (pi_hd K) as (K1 & K2 & _). congruence.
  - intros _. destruct (pi_backlog Ho) as [A|(A & B)]; [auto|right]. split; [lia|exact B].
  - intros Ha. destruct (pi_cur Ha) as [C1 C2]. split.
    + intros En'. destruct (C1 En') as [K _]. split; [exact K|congruence].
    + intros l1 c E _. destruct (C2 _ _ E Ho) as (K1 & K2 & K3 & K4 & K5). ands.
      split; [lia|]. split; [exact Hh'|exact K5].
  - intros E. destruct (pi_first E) as (K1 & K2 & K3 & K4 & K5). ands. split; [lia|]. split; [exact K4|congruence].
  - intros E. destruct (pi_local E) as (K1 & K2). split; [exact K1|]. intros En'.
    destruct (K2 En') as (L1 & L2 & L3 & L4 & L5). ands.
    assert (Ru : rup ch = []) by (rewrite <- (cur_up_none _ En'); exact K1).
    rewrite (Eck Ru). split; [|split; [exact L4|congruence]].
    intros ck I. destruct (L3 ck I) as [-> L]. split; [reflexivity|]. destruct Eu as [-> | ->]; auto.
  - intros _; exact Ih.
  - intros Ha En' cs I. destruct (pi_err Ha En' cs I) as (K1 & K2 & K3 & K4). ands. congruence.
  - intros rest E. destruct (pi_glob rest E) as (K1 & K2 & K3 & K4). ands. congruence.
  - intros L [K|[K|K]]; [auto|auto|congruence].
Qed.

(** The end of a thread. *)
Lemma end_inv P d G hd last clean j p t t' H F ph ch :
  pinv P d G hd last clean j p t H F ph ch -> connected (rt_ph t) = false ->
  over (rt_ph t') = true -> rt_ck t' = rt_ck t -> rt_unver t' = rt_unver t -> rt_st t' = RFinished ->
  In (rt_ck t) G ->
  pinv P d G hd last clean j p t' H F ph ch.
Proof.
  intros X Nc O' Ec Eu Es Ig.
  assert (Nc' : connected (rt_ph t') = false) by (destruct (rt_ph t'); cbn in *; congruence).
  assert (Hh' : held (rt_ph t') = false) by (destruct (rt_ph t'); cbn in *; congruence).
  assert (Fr' : fresh (rt_ph t') = false) by (destruct (rt_ph t'); cbn in *; congruence).
  assert (Fi' : finishing (rt_ph t') = false) by (destruct (rt_ph t'); cbn in *; congruence).
  assert (Wp' : waitp (rt_ph t') = false) by (destruct (rt_ph t'); cbn in *; congruence).
  destruct X.
  assert (Nb : nb t' = nb t) by (unfold nb; rewrite Ec; reflexivity).
  assert (Cn : cnt t' = cnt t) by (unfold cnt; rewrite Nb, Eu; reflexivity).
  constructor; rewrite ?Nb, ?Cn, ?Ec, ?Eu; try assumption; try (intros; congruence).
  - split; [exact Fi'|]. split; intros K; congruence.
  - intros K; rewrite K in Nc'; discriminate.
  - intros K; rewrite K in Nc'; discriminate.
  - intros K. destruct (pi_hd K) as (K1 & K2 & K3). auto.
  - intros Ha. destruct (pi_cur Ha) as [C1 C2]. split; [|intros; congruence].
    intros En'. destruct (C1 En') as [K _]. split; [exact K|congruence].
  - intros E. destruct (pi_first E) as (K1 & K2 & K3 & K4 & K5). ands. congruence.
  - intros E. destruct (pi_local E) as (K1 & K2). split; [exact K1|]. intros En'.
    destruct (K2 En') as (L1 & L2 & L3 & L4 & L5). ands. congruence.
  - intros Ha En' cs I. destruct (pi_err Ha En' cs I) as (K1 & K2 & K3 & K4). ands. congruence.
  - intros rest E. destruct (pi_glob rest E) as (K1 & K2 & K3 & K4). ands. congruence.
  - intros L [K|[K|K]]; [auto|auto|congruence].
Qed.

(** Commands that move no block. *)
Lemma stay_inv P d G hd last clean j p t t' H F ph ch :
  pinv P d G hd last clean j p t H F ph ch ->
  reading (rt_ph t) = true -> reading (rt_ph t') = true -> rt_st t' = rt_st t ->
  rt_idx t' = rt_idx t -> rt_pend t' = rt_pend t ->
  ck_port (rt_ck t') = ck_port (rt_ck t) -> (nb t <= nb t')%nat -> 0 <= ck_numBlocks (rt_ck t') ->
  ck_numBlocks (rt_ck t) <= ck_numBlocks (rt_ck t') ->
  ck_lastBlockSeqId (rt_ck t') = ck_lastBlockSeqId (rt_ck t) ->
  ck_lastBlockOffset (rt_ck t') = ck_lastBlockOffset (rt_ck t) ->
  ck_lastBlockReceivedBytes (rt_ck t') = ck_lastBlockReceivedBytes (rt_ck t) ->
  cnt t' = cnt t -> (rt_unver t = [] -> rt_ck t' = rt_ck t /\ rt_unver t' = []) ->
  pinv P d G hd last clean j p t' H F ph ch.
Proof.
  intros X Re Re' Es Ei Ee Ep Nb N0 Nn E1 E2 E3 Ec Eu.
  assert (Co : connected (rt_ph t) = true) by (destruct (rt_ph t); cbn in *; congruence).
  assert (Co' : connected (rt_ph t') = true) by (destruct (rt_ph t'); cbn in *; congruence).
  assert (Hh' : held (rt_ph t') = false) by (destruct (rt_ph t'); cbn in *; congruence).
  assert (Fr' : fresh (rt_ph t') = false) by (destruct (rt_ph t'); cbn in *; congruence).
  assert (Fi' : finishing (rt_ph t') = false) by (destruct (rt_ph t'); cbn in *; congruence).
  assert (Wp' : waitp (rt_ph t') = false) by (destruct (rt_ph t'); cbn in *; congruence).
  assert (Wp : waitp (rt_ph t) = false) by (destruct (rt_ph t); cbn in *; congruence).
  assert (Ov' : over (rt_ph t') = false) by (destruct (rt_ph t'); cbn in *; congruence).
  assert (Ov : over (rt_ph t) = false) by (destruct (rt_ph t); cbn in *; congruence).
  destruct X. destruct (pi_r Co) as (R1 & R2 & R3).
  assert (Nc : (nb t' <= cnt t)%nat) by (rewrite <- Ec; unfold cnt; lia).
  constructor; rewrite ?Ec, ?Ei, ?Ee, ?E1, ?E2, ?E3, ?Ep, ?Es; try assumption; try (intros; congruence).
  - lia.
  - replace (nb t') with (Nat.min (nb t') (cnt t)) by lia. rewrite <- firstn_firstn. apply Forall_firstn', R2.
  - destruct pi_st as (K1 & K2 & K3). split; [exact Fi'|]. split; intros K; [specialize (K2 K)|specialize (K3 K)]; congruence.
  - intros K; rewrite K in Re'; discriminate.
  - intros K; rewrite K in Re'; discriminate.
  - intros _. auto.
  - intros K. destruct (pi_hd K) as (K1 & K2 & K3). congruence.
  - intros Hm l El. destruct (pi_last Hm l El). split; [lia|assumption].
  - intros _. exact (pi_backlog Ov).
  - intros _. auto.
  - intros Ha. destruct (pi_cur Ha) as [C1 C2]. split; [intros En'; destruct (C1 En'); auto|].
    intros l1 c E _. destruct (C2 _ _ E Ov) as (K1 & K2 & K3 & K4 & K5). auto.
  - intros E. destruct (pi_first E) as (K1 & K2 & K3 & K4 & K5). ands. auto.
  - intros E. destruct (pi_local E) as (K1 & K2). split; [exact K1|]. intros En'.
    destruct (K2 En') as (L1 & L2 & L3 & L4 & L5). ands. split; [|split; [exact L4|auto]].
    intros ck I. destruct (L3 ck I) as [-> L]. destruct (Eu L) as [-> ->]. auto.
  - intros _. auto.
  - intros Ha En' cs I. destruct (pi_err Ha En' cs I) as (K1 & K2 & K3 & K4). ands. intros _.
    destruct (K4 Co). auto.
  - intros rest E. destruct (pi_glob rest E) as (K1 & K2 & K3 & K4). ands. intros _. destruct (K4 Co). auto.
  - intros _. destruct (pi_told Co) as [K|(K1 & K2 & K3)]; [auto|right]. auto.
  - intros L [K|[K|K]]; [auto|auto|congruence].
Qed.

(** The receiver writes [m]; it is lost when there is no connection. *)
Definition said (ch ch' : chan) (m : downmsg) : Prop :=
  ch_new ch' = ch_new ch /\ rup ch' = rup ch /\
  ((ch_r ch = None /\ ch' = ch) \/ (ch_r ch <> None /\ ch_r ch' <> None /\ rdown ch' = rdown ch ++ [m])).

Lemma said_in ch ch' m x : said ch ch' m -> In x (rdown ch') -> In x (rdown ch) \/ x = m.
Proof.
  intros (_ & _ & [(_ & ->)|(_ & _ & ->)]) I; [auto|]. apply in_app_or in I as [I|[I|[]]]; auto.
Qed.
Lemma said_some ch ch' m : said ch ch' m -> ch_r ch <> None -> ch_r ch' <> None.
Proof. intros (_ & _ & [(K & ->)|(_ & K & _)]) N; auto. Qed.
Lemma cur_up_said ch ch' m : said ch ch' m -> cur_up ch' = cur_up ch.
Proof. intros (A & B & _). unfold cur_up. rewrite A, B. reflexivity. Qed.

Lemma say_local_inv P d G hd last clean j p t t' H F ph ch ch' :
  pinv P d G hd last clean j p t H F ph ch -> rt_ph t = PSendLocal -> t' = go t PRead ->
  said ch ch' (DLocal (wire P (rt_ck t))) ->
  pinv P d G hd last clean j p t' H F ph ch'.
Proof.
  intros X Ep -> Sd. pose proof (cur_up_said _ _ _ Sd) as Cu.
  pose proof (fun x => said_in _ _ _ x Sd) as Si. pose proof (said_some _ _ _ Sd) as So.
  destruct Sd as (S1 & S2 & _). destruct X. rewrite Ep in *.
  constructor; cbn [go rt_ph rt_st rt_idx rt_pend rt_new rt_ck rt_unver]; rewrite ?S1, ?S2, ?Cu;
    try assumption; try (intros; discriminate).
  - intros I. destruct (Si _ I) as [K|K]; [auto|discriminate].
  - intros Ha. destruct (pi_cur Ha) as [C1 C2]. split; [intros En; destruct (C1 En); auto|exact C2].
  - intros E. destruct (pi_local E) as (K1 & K2). split; [exact K1|]. intros En.
    destruct (K2 En) as (L1 & L2 & L3 & L4 & L5). split; [auto|]. split; [reflexivity|]. split; [|split; [|exact L5]].
    + intros ck I. destruct (Si _ I) as [K|K]; [exact (L3 _ K)|]. injection K as ->. split; [reflexivity|auto].
    + intros cs I. destruct (Si _ I) as [K|K]; [exact (L4 _ K)|discriminate].
  - intros Ha En cs I. destruct (Si _ I) as [K|K]; [|discriminate].
    destruct (pi_err Ha En cs K) as (_ & _ & _ & K4). destruct (K4 eq_refl); discriminate.
  - intros rest E. destruct (pi_glob rest E) as (_ & _ & _ & K4). destruct (K4 eq_refl); discriminate.
  - intros _. destruct (pi_told eq_refl) as [K|(_ & K & _)]; [auto|discriminate].
  - destruct pi_from as [B1 B2]. split; [|exact B2]. intros cs c I. destruct (Si _ I) as [K|K]; [eauto|discriminate].
Qed.

(** Inside the wait state. *)
Lemma wait_inv P d G hd last clean j p t t' H F ph ch :
  pinv P d G hd last clean j p t H F ph ch -> waitp (rt_ph t) = true ->
  waitp (rt_ph t') = true -> rt_st t' <> RFinished -> rt_idx t' = rt_idx t -> rt_pend t' = rt_pend t ->
  rt_ck t' = rt_ck t -> rt_unver t' = rt_unver t ->
  pinv P d G hd last clean j p t' H F ph ch.
Proof.
  intros X Wp Wp' Es Ei Ee Ec Eu.
  assert (Co : connected (rt_ph t) = true) by (destruct (rt_ph t); cbn in *; congruence).
  assert (Co' : connected (rt_ph t') = true) by (destruct (rt_ph t'); cbn in *; congruence).
  assert (Hh : held (rt_ph t) = true) by (destruct (rt_ph t); cbn in *; congruence).
  assert (Hh' : held (rt_ph t') = true) by (destruct (rt_ph t'); cbn in *; congruence).
  assert (Fr' : fresh (rt_ph t') = false) by (destruct (rt_ph t'); cbn in *; congruence).
  assert (Fi' : finishing (rt_ph t') = false) by (destruct (rt_ph t'); cbn in *; congruence).
  assert (Ov' : over (rt_ph t') = false) by (destruct (rt_ph t'); cbn in *; congruence).
  assert (Ov : over (rt_ph t) = false) by (destruct (rt_ph t); cbn in *; congruence).
  assert (Re : reading (rt_ph t) = false) by (destruct (rt_ph t); cbn in *; congruence).
  destruct X.
  assert (Nb : nb t' = nb t) by (unfold nb; rewrite Ec; reflexivity).
  assert (Cn : cnt t' = cnt t) by (unfold cnt; rewrite Nb, Eu; reflexivity).
  constructor; rewrite ?Nb, ?Cn, ?Ec, ?Eu, ?Ei, ?Ee; try assumption; try (intros; congruence).
  - split; [exact Fi'|]. split; [intros; contradiction|auto].
  - intros K; rewrite K in Wp'; discriminate.
  - intros K; rewrite K in Wp'; discriminate.
  - intros _; auto.
  - intros K. destruct (pi_hd K) as (_ & K2 & _). congruence.
  - intros _; auto.
  - intros _; auto.
  - intros Ha. destruct (pi_cur Ha) as [C1 C2]. split; [intros En; destruct (C1 En); auto|].
    intros l1 c E _. destruct (C2 _ _ E Ov) as (_ & _ & _ & K & _). congruence.
  - intros E. destruct (pi_wait Hh) as (_ & _ & _ & _ & _ & K & _). congruence.
  - intros E. destruct (pi_local E) as (K1 & K2). split; [exact K1|]. intros En'.
    destruct (K2 En') as (L1 & L2 & _). congruence.
  - intros _; auto.
  - intros _; auto.
  - intros Ha En cs I. destruct (pi_err Ha En cs I) as (_ & _ & _ & K4). destruct (K4 Co); congruence.
  - intros rest E. destruct (pi_glob rest E) as (_ & _ & _ & K4). destruct (K4 Co); congruence.
  - intros _. destruct (pi_told Co) as [K|(_ & K & _)]; [auto|congruence].
  - intros L _. auto.
Qed.

Lemma say_wait_inv P d G hd last clean j p t H F ph ch ch' :
  pinv P d G hd last clean j p t H F ph ch -> waitp (rt_ph t) = true -> said ch ch' DWait ->
  pinv P d G hd last clean j p t H F ph ch'.
Proof.
  intros X Wp Sd. pose proof (cur_up_said _ _ _ Sd) as Cu.
  pose proof (fun x => said_in _ _ _ x Sd) as Si. pose proof (said_some _ _ _ Sd) as So.
  assert (Co : connected (rt_ph t) = true) by (destruct (rt_ph t); cbn in *; congruence).
  assert (Hh : held (rt_ph t) = true) by (destruct (rt_ph t); cbn in *; congruence).
  assert (Fr : fresh (rt_ph t) = false) by (destruct (rt_ph t); cbn in *; congruence).
  assert (Re : reading (rt_ph t) = false) by (destruct (rt_ph t); cbn in *; congruence).
  destruct Sd as (S1 & S2 & _). destruct X.
  constructor; rewrite ?S1, ?S2, ?Cu; try assumption; try (intros; congruence).
  - intros I. destruct (Si _ I) as [K|K]; [auto|discriminate].
  - intros Ha. destruct (pi_cur Ha) as [C1 C2]. split; [intros En; destruct (C1 En); auto|exact C2].
  - intros E. destruct (pi_local E) as (K1 & K2). split; [exact K1|]. intros En.
    destruct (K2 En) as (_ & L2 & _). congruence.
  - intros _. destruct (pi_wait Hh) as (B1 & B2 & B3 & B4 & B5 & B6 & B7). ands.
    intros E. destruct (B7 E) as [K1 K2]. split; [exact K1|]. intros cs I. destruct (Si _ I) as [K|K]; [exact (K2 _ K)|discriminate].
  - intros Ha En cs I. destruct (Si _ I) as [K|K]; [|discriminate].
    destruct (pi_err Ha En cs K) as (_ & _ & _ & K4). destruct (K4 Co); congruence.
  - intros rest E. destruct (pi_glob rest E) as (_ & _ & _ & K4). destruct (K4 Co); congruence.
  - intros _. destruct (pi_told Co) as [K|(_ & K & _)]; [auto|congruence].
  - destruct pi_from as [B1 B2]. split; [|exact B2]. intros cs c I. destruct (Si _ I) as [K|K]; [eauto|discriminate].
Qed.

(** New checkpoints were found. *)
Lemma found_inv P d G hd last clean j p t cs H F ph ch :
  pinv P d G hd last clean j p t H F ph ch -> waitp (rt_ph t) = true -> skipn (rt_idx t) G = cs ->
  pinv P d G hd last clean j p (go (mark (news t cs) RRunning) PSendGlobal) H F ph ch.
Proof.
  intros X Wp Ecs.
  assert (Co : connected (rt_ph t) = true) by (destruct (rt_ph t); cbn in *; congruence).
  assert (Hh : held (rt_ph t) = true) by (destruct (rt_ph t); cbn in *; congruence).
  assert (Ov : over (rt_ph t) = false) by (destruct (rt_ph t); cbn in *; congruence).
  assert (Re : reading (rt_ph t) = false) by (destruct (rt_ph t); cbn in *; congruence).
  destruct X.
  constructor; cbn [go mark news rt_ph rt_st rt_idx rt_pend rt_new rt_ck rt_unver];
    try assumption; try (intros; discriminate).
  - split; [reflexivity|]. split; intros; discriminate.
  - intros _. exists []. rewrite app_nil_r. exact Ecs.
  - intros _; auto.
  - intros K. destruct (pi_hd K) as (_ & K2 & _). congruence.
  - intros _; auto.
  - intros _; auto.
  - intros Ha. destruct (pi_cur Ha) as [C1 C2]. split; [intros En; destruct (C1 En); auto|].
    intros l1 c E _. destruct (C2 _ _ E Ov) as (_ & _ & _ & K & _). congruence.
  - intros E. destruct (pi_wait Hh) as (_ & _ & _ & _ & _ & K & _). congruence.
  - intros E. destruct (pi_local E) as (K1 & K2). split; [exact K1|]. intros En'.
    destruct (K2 En') as (L1 & L2 & _). congruence.
  - intros _; exact (pi_wait Hh).
  - intros _; auto.
  - intros Ha En cs' I. destruct (pi_err Ha En cs' I) as (_ & _ & _ & K4). destruct (K4 Co); congruence.
  - intros rest E. destruct (pi_glob rest E) as (_ & _ & _ & K4). destruct (K4 Co); congruence.
  - intros _. destruct (pi_told Co) as [K|(_ & K & _)]; [auto|congruence].
  - intros L [K|[K|K]]; [auto|auto|discriminate].
Qed.

(** They are told. *)
Lemma tell_inv P d G hd last clean j p t H F ph ch ch' :
  pinv P d G hd last clean j p t H F ph ch -> rt_ph t = PSendGlobal ->
  said ch ch' (DErr (map (wire P) (rt_new t))) ->
  pinv P d G hd last clean j p (go (index t (rt_idx t) (rt_idx t + length (rt_new t))) PRead) H F ph ch'.
Proof.
  intros X Ep Sd. pose proof (cur_up_said _ _ _ Sd) as Cu.
  pose proof (fun x => said_in _ _ _ x Sd) as Si. pose proof (said_some _ _ _ Sd) as So.
  pose proof Sd as (S1 & S2 & S3). destruct X. rewrite Ep in *.
  destruct (pi_sg eq_refl) as [rest Er]. destruct (pi_ip eq_refl) as [I1 I2].
  destruct (pi_wait eq_refl) as (B1 & B2 & B3 & B4 & B5 & B6 & B7).
  assert (EG : G = firstn (rt_idx t) G ++ rt_new t ++ rest) by (rewrite <- Er; symmetry; apply firstn_skipn).
  assert (Lg : (rt_idx t + length (rt_new t) <= length G)%nat).
  { rewrite EG at 1. rewrite !app_length, firstn_length. lia. }
  assert (Fp : forall c, In c (firstn (rt_idx t + length (rt_new t)) G) -> handled P hd c \/ In (wire P c) (map (wire P) (rt_new t))).
  { intros c I. rewrite EG in I. rewrite firstn_app in I. apply in_app_or in I as [I|I].
    - left. apply pi_idx; [reflexivity|]. apply firstn_In in I. exact I.
    - right. rewrite firstn_length in I. replace (rt_idx t + length (rt_new t) - Nat.min (rt_idx t) (length G))%nat with (length (rt_new t)) in I by lia.
      rewrite firstn_app_le, firstn_all in I by lia. apply in_map, I. }
  constructor; cbn [go index rt_ph rt_st rt_idx rt_pend rt_new rt_ck rt_unver]; rewrite ?S1, ?S2, ?Cu;
    try assumption; try (intros; discriminate).
  - intros _. split; [exact I1|exact Lg].
  - intros I. destruct (Si _ I) as [K|K]; [auto|discriminate].
  - intros Ha. destruct (pi_cur Ha) as [C1 C2]. split; [intros En; destruct (C1 En); auto|].
    intros l1 c E Ov. destruct (C2 _ _ E Ov) as (_ & _ & _ & K & _). discriminate.
  - intros E; contradiction.
  - intros E. destruct (pi_local E) as (K1 & K2). split; [exact K1|]. intros En.
    destruct (K2 En) as (_ & L2 & _). discriminate.
  - intros Ha En cs I. assert (Eph : ph = SReadCmd).
    { destruct ph; try discriminate; [congruence|reflexivity|exfalso; exact (B5 _ eq_refl)]. }
    destruct (B7 Eph) as [_ Nd].
    destruct (Si _ I) as [K|K]; [exfalso; exact (Nd _ K)|]. injection K as ->.
    split; [exact Eph|]. split; [exact B3|]. split; [|intros _; split; [reflexivity|exact Fp]].
    destruct (pi_cur Ha) as [C1 _]. destruct (C1 En) as [Cr _].
    destruct S3 as [(K & _)|(_ & _ & K)]; [contradiction|]. exists (rdown ch). split; [exact K|exact Nd].
  - intros rst E. exfalso; exact (B5 _ E).
  - intros _. right. split; [exact B3|]. split; [reflexivity|]. intros Ha. right.
    assert (Eph : ph = SReadCmd).
    { destruct ph; try discriminate; [congruence|reflexivity|exfalso; exact (B5 _ eq_refl)]. }
    destruct (B7 Eph) as [En _]. split; [exact Eph|]. split; [exact En|].
    destruct (pi_cur Ha) as [C1 _]. destruct (C1 En) as [Cr _].
    destruct S3 as [(K & _)|(_ & _ & K)]; [contradiction|]. eexists. rewrite K. apply in_or_app; right; left; reflexivity.
  - destruct pi_from as [F1 F2]. split; [|exact F2]. intros cs c I Ic. destruct (Si _ I) as [K|K]; [eauto|].
    injection K as ->. apply in_map_iff in Ic as (c' & <- & Ic). exists c'. split; [|reflexivity].
    rewrite EG. apply in_or_app; right. apply in_or_app; left. exact Ic.
Qed.

(** ** Reading blocks and DONE *)

Definition taken (ch ch' : chan) (rest : list upmsg) : Prop :=
  ch_new ch' = ch_new ch /\ rup ch' = rest /\ rdown ch' = rdown ch /\ ch_r ch' <> None.

(** A command at the head of the connection excludes much. *)
Lemma head_facts P d G hd last clean j p t H F ph ch m rest :
  pinv P d G hd last clean j p t H F ph ch -> rt_ph t = PRead -> rup ch = m :: rest ->
  (forall c, In c (firstn (rt_pend t) G) -> handled P hd c) /\
  (forall c, In c (ch_new ch) -> cn_up c = []) /\ (active ph = true -> ch_new ch = []) /\
  ph <> SConnect true /\ (ph = SReadLocal -> ch_new ch <> []) /\ (forall r, ph <> SGlobal r) /\
  (active ph = true -> forall cs, ~ In (DErr cs) (rdown ch)) /\ ~ In j hd /\ ch_r ch <> None.
Proof.
  intros [] Ep Eu. rewrite Ep in *.
  assert (An : active ph = true -> ch_new ch = []).
  { intros Ha. destruct (pi_cur Ha) as [_ C2]. destruct (last_cases (ch_new ch)) as [E|(l1 & c & E)]; [exact E|].
    destruct (C2 _ _ E eq_refl) as (_ & K & _). congruence. }
  split; [destruct (pi_told eq_refl) as [K|(K & _)]; [exact K|congruence]|].
  split; [destruct (pi_backlog eq_refl) as [K|(_ & K & _)]; [exact K|congruence]|].
  split; [exact An|].
  split; [intros E; destruct (pi_first E) as (_ & K & _); congruence|].
  split; [intros E En; destruct (pi_local E) as (K & _); rewrite (cur_up_none _ En) in K; congruence|].
  split; [intros r E; destruct (pi_glob r E) as (_ & K & _); congruence|].
  split; [intros Ha cs I; destruct (pi_err Ha (An Ha) cs I) as (_ & K & _); congruence|].
  split; [intros I; destruct (pi_hd I) as (_ & K & _); discriminate|].
  intros E. unfold rup in Eu. rewrite E in Eu. discriminate.
Qed.

Lemma cur_up_taken ch ch' rest : taken ch ch' rest ->
  (ch_new ch = [] -> cur_up ch' = rest) /\ (ch_new ch <> [] -> cur_up ch' = cur_up ch).
Proof.
  intros (A & B & _). unfold cur_up. rewrite A, B. split.
  - intros ->. reflexivity.
  - intros N. destruct (rev (ch_new ch)) eqn:E; [|reflexivity].
    exfalso. apply N. rewrite <- (rev_involutive (ch_new ch)), E. reflexivity.
Qed.

Lemma cons_eq {A} (x y : A) l l' : x :: l = y :: l' -> x = y /\ l = l'.
Proof. intros E; injection E; auto. Qed.

Lemma fits_head s o n rest m l F : fits (UBlock s o n :: rest) m l F ->
  (m < length l)%nat /\ (exists h, nth_error l m = Some h /\ keyof h = (s, o, n)) /\ fits rest (S m) l F.
Proof.
  intros ([r A] & B & C). cbn [ukeys flat_map ukey app] in A.
  assert (L : (m < length l)%nat).
  { destruct (Nat.lt_ge_cases m (length l)) as [K|K]; [exact K|]. rewrite skipn_all2 in A by (rewrite map_length; exact K).
    discriminate. }
  destruct (nth_some _ _ _ eq_refl L) as [h Eh].
  assert (Sk : skipn m (map keyof l) = keyof h :: skipn (S m) (map keyof l)).
  { clear - Eh. revert m Eh. induction l as [|x l IH]; intros [|m] Eh; cbn in *; try discriminate.
    - injection Eh as ->. reflexivity.
    - exact (IH _ Eh). }
  rewrite Sk in A. cbn [app] in A. apply cons_eq in A as [Ek Er].
  split; [exact L|]. split; [exists h; split; [exact Eh|exact Ek]|].
  split; [exists r; exact Er|]. split.
  - intros l1 l2 E. eapply (B (UBlock s o n :: l1)). rewrite E. reflexivity.
  - intros I. destruct (C (or_intror I)) as [K1 K2]. split; [|exact K2].
    cbn [ukeys flat_map ukey app] in K1. rewrite Sk in K1. apply cons_eq in K1 as [_ K1]. exact K1.
Qed.

Lemma forall_firstn_S {A} (Q : A -> Prop) m (l : list A) h :
  Forall Q (firstn m l) -> nth_error l m = Some h -> Q h -> Forall Q (firstn (S m) l).
Proof.
  revert l. induction m as [|m IH]; intros [|x l] B E Qh; try discriminate.
  - injection E as ->. constructor; [exact Qh|constructor].
  - cbn in *. inversion B; subst. constructor; [assumption|]. apply IH; assumption.
Qed.

Lemma file_inv P d G hd last clean j p t t' H F ph ch ch' s o n rest :
  pinv P d G hd last clean j p t H F ph ch -> rt_ph t = PRead -> rup ch = UBlock s o n :: rest ->
  taken ch ch' rest -> rt_ph t' = PRead -> rt_st t' = rt_st t ->
  rt_idx t' = rt_pend t -> rt_pend t' = rt_pend t -> ck_port (rt_ck t') = ck_port (rt_ck t) ->
  ck_numBlocks (rt_ck t) <= ck_numBlocks (rt_ck t') ->
  ck_lastBlockReceivedBytes (rt_ck t') = 0 -> cnt t' = S (cnt t) ->
  pinv P (d ++ [(s, o, n)]) G hd last clean j p t' H F ph ch'.
Proof.
  intros X Ep Eu Tk Ep' Es Ei Ee Ec En Eb Cn.
  destruct (head_facts _ _ _ _ _ _ _ _ _ _ _ _ _ _ _ X Ep Eu) as (H1 & H2 & H3 & H4 & H5 & H6 & H7 & H8 & H9).
  apply (pinv_disk _ _ [(s, o, n)]) in X.
  pose proof (cur_up_taken _ _ _ Tk) as [Cu1 Cu2]. destruct Tk as (T1 & T2 & T3 & T4).
  destruct X. rewrite Ep in *.
  destruct (pi_r eq_refl) as (R1 & R2 & R3). rewrite Eu in R3.
  destruct (fits_head _ _ _ _ _ _ _ R3) as (L & (h & Eh & Kh) & R3').
  assert (W : wr (d ++ [(s, o, n)]) h) by (unfold wr; rewrite Kh; apply in_or_app; right; left; reflexivity).
  pose proof (forall_firstn_S _ _ _ _ R2 Eh W) as R2'.
  assert (Nc : (nb t' <= cnt t')%nat) by (unfold cnt; lia).
  constructor; rewrite ?Ep', ?Es, ?Ei, ?Ee, ?T1, ?T2, ?T3, ?Eb; try assumption; try (intros; discriminate).
  - congruence.
  - lia.
  - lia.
  - replace (nb t') with (Nat.min (nb t') (S (cnt t))) by lia. rewrite <- firstn_firstn. apply Forall_firstn', R2'.
  - split; [lia|]. intros x Hx; lia.
  - intros _; reflexivity.
  - intros _. destruct (pi_ip eq_refl). auto.
  - intros K; contradiction.
  - intros Hm l El. destruct (pi_last Hm l El). split; [lia|assumption].
  - intros _; left; exact H2.
  - intros _. rewrite Cn. split; [lia|]. split; [exact R2'|exact R3'].
  - intros Ha. destruct (pi_cur Ha) as [C1 C2]. split.
    + intros En'. split; [exact T4|]. intros _. rewrite Cn. destruct (C1 En') as [_ K]. specialize (K eq_refl).
      rewrite Eu in K. cbn [ukeys flat_map ukey app] in K.
      assert (Sk : skipn (cnt t) (map keyof (hi_list H)) = keyof h :: skipn (S (cnt t)) (map keyof (hi_list H))).
      { clear - Eh. revert Eh. generalize (cnt t). induction (hi_list H) as [|x l IH]; intros [|m] Eh; cbn in *; try discriminate.
        - injection Eh as ->. reflexivity.
        - exact (IH _ Eh). }
      rewrite Sk in K. apply cons_eq in K as [_ K]. exact K.
    + intros l1 c E _. rewrite (H3 Ha) in E. destruct l1; discriminate.
  - intros E. specialize (H3 ltac:(rewrite E; reflexivity)). rewrite (Cu1 H3). specialize (pi_nodone E).
    rewrite (cur_up_none _ H3), Eu in pi_nodone. intros I. apply pi_nodone; right; exact I.
  - intros E; contradiction.
  - intros E. specialize (H5 E). rewrite (Cu2 H5). split; [exact (proj1 (pi_local E))|]. intros K; contradiction.
  - intros _; exact H1.
  - intros Ha En' cs I. exfalso; exact (H7 Ha _ I).
  - intros r E. exfalso; exact (H6 _ E).
  - intros _; left; exact H1.
  - intros L' [K|[K|K]]; [apply pi_q; [exact L'|]; left; rewrite Eu; right; exact K|auto|discriminate].
Qed.

Lemma done_cmd_inv P d G hd last clean j p t t' H F ph ch ch' rest :
  pinv P d G hd last clean j p t H F ph ch -> rt_ph t = PRead -> rup ch = UDone :: rest ->
  taken ch ch' rest -> t' = go (index t (rt_pend t) (rt_pend t)) PWait ->
  pinv P d G hd last clean j p t' H F ph ch'.
Proof.
  intros X Ep Eu Tk ->.
  destruct (head_facts _ _ _ _ _ _ _ _ _ _ _ _ _ _ _ X Ep Eu) as (H1 & H2 & H3 & H4 & H5 & H6 & H7 & H8 & H9).
  pose proof (cur_up_taken _ _ _ Tk) as [Cu1 Cu2]. destruct Tk as (T1 & T2 & T3 & T4).
  destruct X. rewrite Ep in *.
  destruct (pi_r eq_refl) as (R1 & R2 & R3). rewrite Eu in R3. destruct R3 as (_ & F2 & F3).
  assert (Er : rest = []) by (apply (F2 []); reflexivity). rewrite Er in *; clear Er F2.
  destruct (F3 (or_introl eq_refl)) as [Fk Fn]. cbn [ukeys flat_map ukey app] in Fk.
  assert (Cn : cnt t = length (hi_list H)).
  { symmetry in Fk. apply (f_equal (@length _)) in Fk. rewrite skipn_length, map_length in Fk. cbn in Fk. lia. }
  assert (Ns : ph <> SSend).
  { intros E. specialize (H3 ltac:(rewrite E; reflexivity)). specialize (pi_nodone E).
    rewrite (cur_up_none _ H3), Eu in pi_nodone. apply pi_nodone; left; reflexivity. }
  constructor; cbn [go index rt_ph rt_st rt_idx rt_pend rt_new rt_ck rt_unver]; rewrite ?T1, ?T2, ?T3; try assumption; try (intros; discriminate).
  - destruct pi_st as (K1 & K2 & K3). split; [reflexivity|]. split; [exact K2|reflexivity].
  - intros _. destruct (pi_ip eq_refl). auto.
  - intros _; left; exact H2.
  - intros _. split; [exact R1|]. split; [exact R2|apply fits_nil].
  - intros Ha. split.
    + intros En'. split; [exact T4|]. intros _. exact Fk.
    + intros l1 c E _. rewrite (H3 Ha) in E. destruct l1; discriminate.
  - intros E; contradiction.
  - intros E; contradiction.
  - intros E. specialize (H5 E). rewrite (Cu2 H5). split; [exact (proj1 (pi_local E))|]. intros K; contradiction.
  - intros _. split; [exact Cn|]. split; [exact Fn|]. split; [reflexivity|]. ands. intros E. split; [apply H3; rewrite E; reflexivity|].
    apply H7; rewrite E; reflexivity.
  - intros _; exact H1.
  - intros Ha En' cs I. exfalso; exact (H7 Ha _ I).
  - intros r E. exfalso; exact (H6 _ E).
  - intros _; left; exact H1.
  - intros L' _. apply pi_q; [exact L'|]. left; rewrite Eu; left; reflexivity.
Qed.

(** ** Accepting *)

Lemma accept_inv P d G hd last clean j p t t' H F ph ch m c l :
  pinv P d G hd last clean j p t H F ph ch ->
  over (rt_ph t) = false -> connected (rt_ph t) = false -> skipn m (ch_new ch) = c :: l ->
  rt_ph t' = PRead \/ rt_ph t' = PSendLocal -> rt_st t' = rt_st t -> rt_ck t' = rt_ck t -> rt_unver t' = [] ->
  (rt_idx t' <= rt_idx t)%nat -> rt_pend t' = rt_idx t' ->
  pinv P d G hd last clean j p t' H F ph {| ch_r := Some c; ch_new := l |}.
Proof.
  intros X Ov Co Sk Ph Es Ec Eu Ei Ee.
  assert (En : ch_new ch = firstn m (ch_new ch) ++ c :: l) by (rewrite <- Sk; symmetry; apply firstn_skipn).
  remember (firstn m (ch_new ch)) as l0. clear Heql0 Sk.
  destruct X.
  assert (Ph' : connected (rt_ph t') = true /\ over (rt_ph t') = false /\ held (rt_ph t') = false /\
    waitp (rt_ph t') = false /\ fresh (rt_ph t') = false /\ finishing (rt_ph t') = false /\ rt_ph t' <> PSendGlobal)
    by (destruct Ph as [-> | ->]; repeat split; discriminate).
  destruct Ph' as (Co' & Ov' & Hh' & Wp' & Fr' & Fi' & Ng').
  assert (Nb : nb t' = nb t) by (unfold nb; rewrite Ec; reflexivity).
  assert (Cn' : cnt t' = nb t) by (unfold cnt; rewrite Eu, Nb; cbn; lia).
  assert (Cn : (cnt t' <= cnt t)%nat) by (rewrite Cn'; unfold cnt; lia).
  assert (Ic : In c (ch_new ch)) by (rewrite En; apply in_or_app; right; left; reflexivity).
  assert (Il : forall x, In x l -> In x (ch_new ch)) by (intros x I; rewrite En; apply in_or_app; right; right; exact I).
  assert (Dn : cn_down c = []) by (apply pi_newdown, Ic).
  assert (Hn : forall x, In x (firstn (rt_idx t') G) -> handled P hd x).
  { intros x I. apply (pi_idx Ov). rewrite <- (Nat.min_l _ _ Ei), <- firstn_firstn in I. apply firstn_In in I. exact I. }
  assert (Cu : cur_up {| ch_r := Some c; ch_new := l |} = cur_up ch).
  { destruct (last_cases l) as [-> | (l1 & x & ->)].
    - rewrite (cur_up_last _ _ _ En). reflexivity.
    - rewrite (cur_up_last ch (l0 ++ c :: l1) x) by (rewrite En, <- app_assoc; reflexivity).
      erewrite cur_up_last by reflexivity. reflexivity. }
  assert (Ru : rup {| ch_r := Some c; ch_new := l |} = cn_up c) by reflexivity.
  assert (Rd : rdown {| ch_r := Some c; ch_new := l |} = []) by exact Dn.
  constructor; rewrite ?Ru, ?Rd, ?Cu, ?Nb, ?Ec, ?Es, ?Ee; cbn [ch_r ch_new]; try assumption; try (intros; congruence).
  - destruct pi_st as (K1 & K2 & K3). split; [exact Fi'|]. split; intros K; [specialize (K2 K); congruence|].
    specialize (K3 K). destruct (rt_ph t); cbn in *; congruence.
  - intros _. destruct (pi_ip Ov). lia.
  - intros K. destruct (pi_hd K) as (_ & K2 & _). congruence.
  - intros [].
  - intros x I. apply pi_newdown, Il, I.
  - intros _. destruct (pi_backlog Ov) as [A|(A & B & l1 & x & l2 & E & C & D)].
    + left. intros y I. apply A, Il, I.
    + rewrite En in E. destruct (app_eq_app _ _ _ _ E) as (r & [[K1 K2]|[K1 K2]]).
      * (* x comes after l0: l0 = l1 ++ r or so *)
        destruct r as [|y r].
        -- cbn in K2. injection K2 as <- <-. left. intros y I. apply C. apply in_or_app; right; exact I.
        -- cbn in K2. injection K2 as <- ->. left. intros z I. apply C. apply in_or_app; right. apply in_or_app; right; right; exact I.
      * destruct r as [|y r].
        -- cbn in K2. injection K2 as -> ->. left. intros y I. apply C. apply in_or_app; right; exact I.
        -- cbn in K2. injection K2 as <- ->. right. split; [lia|]. split.
           ++ apply C. rewrite K1. apply in_or_app; left. apply in_or_app; right; left; reflexivity.
           ++ exists r, x, l2. split; [reflexivity|]. split; [|exact D]. intros z I. apply C. rewrite K1.
              rewrite <- app_assoc. apply in_or_app; right. cbn. right. exact I.
  - intros _. rewrite Cn'. split; [exact pi_len|]. split; [exact pi_wr|].
    destruct (pi_backlog Ov) as [A|(A & B & l1 & x & l2 & E & C & D)].
    + rewrite (A c Ic). apply fits_nil.
    + assert (N0 : nb t = 0%nat) by (unfold cnt in A; lia). rewrite N0.
      rewrite E in Ic. apply in_app_or in Ic as [I|[I|I]].
      * rewrite (C c) by (apply in_or_app; auto). apply fits_nil.
      * subst x. exact D.
      * rewrite (C c) by (apply in_or_app; auto). apply fits_nil.
  - intros Ha. destruct (pi_cur Ha) as [C1 C2]. split.
    + intros ->. split; [discriminate|]. intros _. destruct (C2 _ _ En Ov) as (_ & _ & K3 & _ & K5).
      assert (N0 : cnt t' = 0%nat) by lia. rewrite N0. exact K5.
    + intros l1 x -> _. destruct (C2 (l0 ++ c :: l1) x) as (K1 & K2 & K3 & K4 & K5); [rewrite En, <- app_assoc; reflexivity|exact Ov|].
      split; [intros y I; apply K1; apply in_or_app; right; right; exact I|].
      split; [apply K1; apply in_or_app; right; left; reflexivity|]. split; [lia|]. split; [exact Hh'|exact K5].
  - intros E. destruct (pi_first E) as (K1 & K2 & K3 & K4 & K5). ands. split; [apply K4, Ic|]. split; [lia|].
    split; [intros y I; apply K4, Il, I|]. intros _. exact Hn.
  - intros E. destruct (pi_local E) as (K1 & K2). split; [exact K1|]. intros ->.
    split; [discriminate|]. split; [exact Hh'|]. split; [intros ck []|]. split; [intros cs []|]. intros _. exact Hn.
  - intros _; exact Hn.
  - intros _ _ cs [].
  - intros r E. destruct (pi_glob r E) as (K & _). rewrite K in En. destruct l0; discriminate.
  - intros _; left; exact Hn.
  - destruct pi_from as [_ B]. split; [intros cs x []|exact B].
  - intros L [K|[(x & I & K)|K]]; [| |congruence]; (apply pi_q; [exact L|]); right; left; [exists c|exists x]; auto.
Qed.
