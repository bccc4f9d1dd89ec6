(** A sender thread that was told the end has all its blocks confirmed. *)
From Coq Require Import Lia.
From Verif Require Export Proofs.TransferFacts.
From Verif Require Import Proofs.QueueMonitorFacts Proofs.TransferSend.

Definition told_end (p : sphase) : bool := match p with SDone | SOk => true | _ => false end.
Definition full (hi : history) : Prop := hi_acked hi = zlen (hi_list hi).
Definition Acked (w : world) : Prop :=
  forall k p hi, nth_error (w_sph w) k = Some p -> told_end p = true ->
    nth_error (sn_hist (w_s w)) k = Some hi -> full hi.

Lemma ckpt_full hi ts c g e hi' ts' ret : setCheckpoint hi ts c g = Ret (e, hi', ts', ret) -> full hi -> full hi'.
Proof.
  unfold setCheckpoint. destruct (Z.ltb_spec (zlen (hi_list hi)) (ck_numBlocks c)); [intros E; injection E as _ <- _ _; auto|].
  destruct (validateCheckpoint _ _ _) as [v| |]; cbn [obind]; try discriminate.
  destruct (v =? INVALID_CHECKPOINT); [intros E; injection E as _ <- _ _; auto|].
  destruct (Z.ltb_spec (ck_numBlocks c) 0); [discriminate|].
  destruct (fail_all _ _ _). intros E; injection E as _ <- _ _. intros _. unfold full, zlen in *; cbn [hi_acked hi_list].
  rewrite firstn_length. lia.
Qed.
(** What an action leaves alone: the histories of other threads, and that all of a
    history is confirmed when it is a global checkpoint. *)
Definition actor (a : sact) : option nat :=
  match a with
  | ADiscover _ => None
  | ATake i _ _ | ASend i _ | ALocal i _ | AGlobal i _ | AReturn i | AAckAll i | AError i _ | AHeader i _ => Some i
  end.
Lemma step_other s a s' k : sn_step s a = Some (Ret s') -> actor a <> Some k ->
  nth_error (sn_hist s') k = nth_error (sn_hist s) k.
Proof.
  intros E N. assert (G : forall i q fl hi ts f, i <> k ->
    nth_error (sn_hist (upd_thread s i q fl hi ts f)) k = nth_error (sn_hist s) k).
  { intros i q fl hi ts f D. unfold upd_thread; cbn [sn_hist]. apply nth_set_other. congruence. }
  destruct a; cbn [sn_step actor] in *;
    repeat match type of E with
           | match ?x with _ => _ end = _ => destruct x eqn:?; try discriminate E
           | apply_ckpt _ _ _ ?x = _ => unfold apply_ckpt in E
           | (let '(_, _) := ?x in _) = _ => destruct x eqn:?
           end;
    try (injection E as <-; apply G; congruence).
  injection E as <-. reflexivity.
Qed.
Lemma ack_full s i s' hi : sn_step s (AAckAll i) = Some (Ret s') -> nth_error (sn_hist s') i = Some hi -> full hi.
Proof.
  cbn [sn_step]. unfold nthd. destruct (nth_error (sn_flight s) i) as [[|]|] eqn:?; try discriminate.
  destruct (nth_error (sn_hist s) i) as [h0|] eqn:Eh; try discriminate.
  destruct (nth_error (sn_stats s) i); try discriminate.
  intros E; injection E as <-. unfold upd_thread; cbn [sn_hist]. rewrite (nth_set_same _ _ _ _ Eh).
  intros K; injection K as <-. reflexivity.
Qed.
Lemma global_full s i c s' hi hi' : sn_step s (AGlobal i c) = Some (Ret s') -> nth_error (sn_hist s) i = Some hi ->
  full hi -> nth_error (sn_hist s') i = Some hi' -> full hi'.
Proof.
  cbn [sn_step]. unfold nthd. destruct (nth_error (sn_flight s) i); try discriminate.
  destruct (nth_error (sn_hist s) i) as [h0|] eqn:Eh; try discriminate.
  destruct (nth_error (sn_stats s) i); try discriminate.
  unfold apply_ckpt. destruct (setCheckpoint _ _ _ _) as [[[[e hi1] ts1] ret]| |] eqn:Ec; try discriminate.
  intros E; injection E as <-. intros K F; injection K as <-. unfold upd_thread; cbn [sn_hist]. rewrite (nth_set_same _ _ _ _ Eh).
  intros K; injection K as <-. eapply ckpt_full; eassumption.
Qed.

Lemma acked_same w w' : w_sph w' = w_sph w -> sn_hist (w_s w') = sn_hist (w_s w) -> Acked w -> Acked w'.
Proof. unfold Acked. intros -> ->. auto. Qed.
(** Thread [i] goes to a phase; histories of the threads told the end stay full. *)
Lemma acked_go w w' i p : Acked w -> w_sph w' = set_nth (w_sph w) i p ->
  (forall k q, k <> i -> nth_error (w_sph w) k = Some q -> told_end q = true ->
     forall hi', nth_error (sn_hist (w_s w')) k = Some hi' -> full hi') ->
  (told_end p = true -> forall hi', nth_error (sn_hist (w_s w')) i = Some hi' -> full hi') ->
  Acked w'.
Proof.
  intros A E O S k q hi' Eq T Eh. rewrite E in Eq. destruct (nth_set_inv _ _ _ _ _ Eq) as [(-> & ->)|(D & Eq')].
  - exact (S T hi' Eh).
  - exact (O k q D Eq' T hi' Eh).
Qed.

Lemma sender_acked P w i ph ch e w' : Acked w -> nth_error (w_sph w) i = Some ph -> port_of e = Some i ->
  sender_step P w i ph ch e = Some (Ret w') -> Acked w'.
Proof.
  intros A Eph Ep E.
  assert (Keep : forall s', sn_hist s' = sn_hist (w_s w) -> forall k q, nth_error (w_sph w) k = Some q -> told_end q = true ->
     forall hi', nth_error (sn_hist s') k = Some hi' -> full hi').
  { intros s' Es k q Eq T hi' Eh. rewrite Es in Eh. exact (A k q hi' Eq T Eh). }
  assert (Oth : forall a s', sn_step (w_s w) a = Some (Ret s') -> actor a = Some i ->
     forall k q, k <> i -> nth_error (w_sph w) k = Some q -> told_end q = true ->
     forall hi', nth_error (sn_hist s') k = Some hi' -> full hi').
  { intros a s' Ea Ei k q D Eq T hi' Eh. rewrite (step_other _ _ _ k Ea) in Eh by congruence. exact (A k q hi' Eq T Eh). }
  assert (Stay : forall a s' w1, sn_step (w_s w) a = Some (Ret s') -> actor a = Some i -> told_end ph = false ->
     w_s w1 = s' -> w_sph w1 = w_sph w -> Acked w1).
  { intros a s' w1 Ea Ei T Ew1 Ew2 k q hi' Eq Tq Eh. rewrite Ew2 in Eq. rewrite Ew1 in Eh.
    destruct (Nat.eq_dec k i) as [->|D]; [congruence|]. exact (Oth a s' Ea Ei k q D Eq Tq hi' Eh). }
  destruct e as [s| |i0|i0|i0|i0|i0 j opened|i0 r got|i0|i0|i0|i0|i0|i0 a|i0 m a]; cbn [port_of] in Ep; try discriminate Ep;
    injection Ep as ->; unfold sender_step in E; cbv zeta in E; unfold does in E;
    destruct ph as [first| | | |cs| | |]; try discriminate E.
  - injection E as <-. apply (acked_same w); [reflexivity|reflexivity|exact A].
  - injection E as <-. eapply (acked_go w _ i _ A); [reflexivity|intros k q _; apply Keep; reflexivity|destruct first; discriminate].
  - injection E as <-. eapply (acked_go w _ i _ A); [reflexivity|intros k q _; apply Keep; reflexivity|discriminate].
  - match type of E with (if ?b then _ else _) = _ => destruct b; [|discriminate E] end.
    injection E as <-. eapply (acked_go w _ i _ A); [reflexivity|intros k q _; apply Keep; reflexivity|discriminate].
  - injection E as <-. eapply (acked_go w _ i _ A); [reflexivity|intros k q _; apply Keep; reflexivity|discriminate].
  - injection E as <-. eapply (acked_go w _ i _ A); [reflexivity|intros k q _; apply Keep; reflexivity|discriminate].
  - injection E as <-. eapply (acked_go w _ i _ A); [reflexivity|intros k q _; apply Keep; reflexivity|discriminate].
  - injection E as <-. eapply (acked_go w _ i _ A); [reflexivity|intros k q _; apply Keep; reflexivity|discriminate].
  - match type of E with (if ?b then _ else _) = _ => destruct b; [|discriminate E] end.
    injection E as <-. eapply (acked_go w _ i _ A); [reflexivity|intros k q _; apply Keep; reflexivity|discriminate].
  - injection E as <-. eapply (acked_go w _ i _ A); [reflexivity|intros k q _; apply Keep; reflexivity|discriminate].
  - destruct (sn_step (w_s w) (ATake i j opened)) as [[s'| |]|] eqn:Es; try discriminate E. injection E as <-.
    eapply Stay; [exact Es|reflexivity|reflexivity|reflexivity|reflexivity].
  - destruct (nth_error (sn_flight (w_s w)) i) as [[h|]|]; try discriminate E.
    destruct (leaves h r got) as [m|]; try discriminate E.
    destruct (sn_step (w_s w) (ASend i r)) as [[s'| |]|] eqn:Es; try discriminate E. injection E as <-.
    destruct r; [eapply Stay; [exact Es|reflexivity|reflexivity|reflexivity|reflexivity]|].
    eapply (acked_go w _ i _ A); [reflexivity|intros k q D; eapply Oth; [exact Es|reflexivity|exact D]|discriminate].
  - destruct (sn_queue (w_s w)); try discriminate E.
    match type of E with (if ?b then _ else _) = _ => destruct b; [|discriminate E] end.
    injection E as <-. eapply (acked_go w _ i _ A); [reflexivity|intros k q _; apply Keep; reflexivity|discriminate].
  - destruct (take_down ch) as [[[c|cs| |] ch']|]; try discriminate E;
      try (injection E as <-; eapply (acked_go w _ i _ A); [reflexivity|intros k q _; apply Keep; reflexivity|discriminate]).
    match type of E with (if ?b then _ else _) = _ => destruct b end;
      [injection E as <-; eapply (acked_go w _ i _ A); [reflexivity|intros k q _; apply Keep; reflexivity|discriminate]|].
    destruct (ck_numBlocks c =? -1);
      [injection E as <-; eapply (acked_go w _ i _ A); [reflexivity|intros k q _; apply Keep; reflexivity|discriminate]|].
    destruct (sn_step (w_s w) (ALocal i c)) as [[s'| |]|] eqn:Es; try discriminate E. injection E as <-.
    eapply (acked_go w _ i _ A); [reflexivity|intros k q D; eapply Oth; [exact Es|reflexivity|exact D]|].
    destruct (refuses _ _ _ _); discriminate.
  - destruct (take_down ch) as [[[c|cs| |] ch']|]; try discriminate E.
    + injection E as <-. eapply (acked_go w _ i _ A); [reflexivity|intros k q _; apply Keep; reflexivity|].
      match goal with |- context[if ?b then _ else _] => destruct b; discriminate end.
    + destruct (sn_step (w_s w) (AAckAll i)) as [[s'| |]|] eqn:Es; try discriminate E. injection E as <-.
      eapply (acked_go w _ i _ A); [reflexivity|intros k q D; eapply Oth; [exact Es|reflexivity|exact D]|].
      destruct cs; discriminate.
    + destruct (sn_step (w_s w) (AAckAll i)) as [[s'| |]|] eqn:Es; try discriminate E. injection E as <-.
      eapply Stay; [exact Es|reflexivity|reflexivity|reflexivity|reflexivity].
    + destruct (sn_step (w_s w) (AAckAll i)) as [[s'| |]|] eqn:Es; try discriminate E. injection E as <-.
      eapply (acked_go w _ i _ A); [reflexivity|intros k q D; eapply Oth; [exact Es|reflexivity|exact D]|].
      intros _ hi' Eh. eapply ack_full; [exact Es|exact Eh].
  - destruct cs as [|c cs]; [discriminate E|]. destruct (port_index (tp_ports P) (ck_port c)) as [n|].
    2:{ injection E as <-. eapply (acked_go w _ i _ A); [reflexivity|intros k q _; apply Keep; reflexivity|destruct cs; discriminate]. }
    destruct (nth_error (w_sph w) n) as [q0|] eqn:En; [|discriminate E].
    destruct (ended q0) eqn:Eq0; [|discriminate E].
    destruct (sn_step (w_s w) (AGlobal n c)) as [[s'| |]|] eqn:Es; try discriminate E. injection E as <-.
    eapply (acked_go w _ i _ A); [reflexivity| |destruct cs; discriminate].
    intros k q D Eq T hi' Eh. cbn [with_ph with_refused with_s w_s] in Eh. destruct (Nat.eq_dec k n) as [->|Dn].
    + destruct (nth_error (sn_hist (w_s w)) n) as [h0|] eqn:Eh0.
      * eapply global_full; [exact Es|exact Eh0|exact (A n q h0 Eq T Eh0)|exact Eh].
      * cbn [sn_step] in Es. unfold nthd in Es. rewrite Eh0 in Es. destruct (nth_error (sn_flight (w_s w)) n); discriminate Es.
    + rewrite (step_other _ _ _ k Es) in Eh by (cbn [actor]; congruence). exact (A k q hi' Eq T Eh).
  - injection E as <-. eapply (acked_go w _ i _ A); [reflexivity|intros k q _; apply Keep; reflexivity|].
    intros _ hi' Eh. exact (A i SDone hi' Eph eq_refl Eh).
Qed.

Lemma step_acked P w e w' : Acked w -> t_step P w e = Some (Ret w') -> Acked w'.
Proof.
  intros A E.
  assert (R : forall i ch a, recv_step P w i ch a = Some (Ret w') -> Acked w').
  { intros i ch a E1. unfold recv_step in E1. destruct (feed _ _ _) as [[up d]|]; [|discriminate E1].
    destruct (rs_step _ _) as [[[r o]| |]|]; try discriminate E1. injection E1 as <-.
    apply (acked_same w); [reflexivity|reflexivity|exact A]. }
  assert (C : forall i m ch a, accept_step w i m ch a = Some (Ret w') -> Acked w').
  { intros i m ch a E1. unfold accept_step in E1.
    destruct a; try discriminate E1; destruct (skipn m (ch_new ch)); try discriminate E1;
    destruct (rs_step _ _) as [[[r o]| |]|]; try discriminate E1; injection E1 as <-;
    apply (acked_same w); try reflexivity; exact A. }
  destruct e as [s| |i0|i0|i0|i0|i0 j opened|i0 r got|i0|i0|i0|i0|i0|i0 a|i0 m a]; cbn [t_step port_of] in E.
  - destruct (w_init w); [discriminate E|]. unfold does in E.
    destruct (sn_step (w_s w) (ADiscover s)) as [[s'| |]|] eqn:Es; try discriminate E. injection E as <-.
    cbn [sn_step] in Es. injection Es as <-. apply (acked_same w); [reflexivity|reflexivity|exact A].
  - injection E as <-. apply (acked_same w); [reflexivity|reflexivity|exact A].
  - destruct (nth_error (w_sph w) i0) as [ph|] eqn:Ep; [|discriminate E]. destruct (nth_error (w_chan w) i0) as [ch|]; [|discriminate E].
    eapply sender_acked; [exact A|exact Ep| |exact E]; reflexivity.
  - destruct (nth_error (w_sph w) i0) as [ph|] eqn:Ep; [|discriminate E]. destruct (nth_error (w_chan w) i0) as [ch|]; [|discriminate E].
    eapply sender_acked; [exact A|exact Ep| |exact E]; reflexivity.
  - destruct (nth_error (w_sph w) i0) as [ph|] eqn:Ep; [|discriminate E]. destruct (nth_error (w_chan w) i0) as [ch|]; [|discriminate E].
    eapply sender_acked; [exact A|exact Ep| |exact E]; reflexivity.
  - destruct (nth_error (w_sph w) i0) as [ph|] eqn:Ep; [|discriminate E]. destruct (nth_error (w_chan w) i0) as [ch|]; [|discriminate E].
    eapply sender_acked; [exact A|exact Ep| |exact E]; reflexivity.
  - destruct (nth_error (w_sph w) i0) as [ph|] eqn:Ep; [|discriminate E]. destruct (nth_error (w_chan w) i0) as [ch|]; [|discriminate E].
    eapply sender_acked; [exact A|exact Ep| |exact E]; reflexivity.
  - destruct (nth_error (w_sph w) i0) as [ph|] eqn:Ep; [|discriminate E]. destruct (nth_error (w_chan w) i0) as [ch|]; [|discriminate E].
    eapply sender_acked; [exact A|exact Ep| |exact E]; reflexivity.
  - destruct (nth_error (w_sph w) i0) as [ph|] eqn:Ep; [|discriminate E]. destruct (nth_error (w_chan w) i0) as [ch|]; [|discriminate E].
    eapply sender_acked; [exact A|exact Ep| |exact E]; reflexivity.
  - destruct (nth_error (w_sph w) i0) as [ph|] eqn:Ep; [|discriminate E]. destruct (nth_error (w_chan w) i0) as [ch|]; [|discriminate E].
    eapply sender_acked; [exact A|exact Ep| |exact E]; reflexivity.
  - destruct (nth_error (w_sph w) i0) as [ph|] eqn:Ep; [|discriminate E]. destruct (nth_error (w_chan w) i0) as [ch|]; [|discriminate E].
    eapply sender_acked; [exact A|exact Ep| |exact E]; reflexivity.
  - destruct (nth_error (w_sph w) i0) as [ph|] eqn:Ep; [|discriminate E]. destruct (nth_error (w_chan w) i0) as [ch|]; [|discriminate E].
    eapply sender_acked; [exact A|exact Ep| |exact E]; reflexivity.
  - destruct (nth_error (w_sph w) i0) as [ph|] eqn:Ep; [|discriminate E]. destruct (nth_error (w_chan w) i0) as [ch|]; [|discriminate E].
    eapply sender_acked; [exact A|exact Ep| |exact E]; reflexivity.
  - destruct (nth_error (w_sph w) i0) as [ph|] eqn:Ep; [|discriminate E]. destruct (nth_error (w_chan w) i0) as [ch|]; [|discriminate E].
    destruct (hears w i0 a); [|discriminate E]. eapply R, E.
  - destruct (nth_error (w_sph w) i0) as [ph|] eqn:Ep; [|discriminate E]. destruct (nth_error (w_chan w) i0) as [ch|]; [|discriminate E].
    destruct (hears w i0 a); [|discriminate E]. eapply C, E.
Qed.
Lemma run_acked P l : forall w w', Acked w -> t_run P w l = Some (Ret w') -> Acked w'.
Proof.
  induction l as [|e l IH]; intros w w' A E; cbn [t_run] in E; [injection E as <-; exact A|].
  destruct (t_step P w e) as [[w1| |]|] eqn:E1; try discriminate E. eapply IH; [eapply step_acked; eassumption|exact E].
Qed.
Lemma ok_confirmed P l w i hi : t_run P (world_init P) l = Some (Ret w) -> sender_ok w i ->
  nth_error (sn_hist (w_s w)) i = Some hi -> hi_acked hi = zlen (hi_list hi).
Proof.
  intros E S Eh. refine (run_acked P l _ _ _ E i SOk hi S eq_refl Eh).
  intros k p hi' Ep T _. unfold world_init in Ep. cbn [w_sph] in Ep. apply nth_error_In, repeat_spec in Ep. subst p. discriminate T.
Qed.
