From Verif Require Import Proofs.QueueMonitorFacts Proofs.HistoryFacts Proofs.RecvSessionFacts.
From Verif Require Export Proofs.TransferSend.
From Coq Require Import Lia Permutation.

(** ** One step of the sender, all ports *)

Lemma nth_some {A} (l : list A) n i : length l = n -> (i < n)%nat -> exists x, nth_error l i = Some x.
Proof. intros <- L. apply nth_error_Some in L. destruct (nth_error l i); [eauto|congruence]. Qed.

Lemma port_at P w hd last clean i : minv P w hd last clean -> (i < length (tp_ports P))%nat ->
  exists p t H F ph ch, at_port P w i p t H F ph ch /\
    pinv P (w_disk w) (rs_ckpts (w_r w)) hd last clean i p t H F ph ch.
Proof.
  intros M L. destruct (mi_len _ _ _ _ _ M) as (L1 & L2 & L3 & L4 & L5).
  destruct (nth_some _ _ _ L1 L) as [t Et]. destruct (nth_some _ _ _ L2 L) as [H EH].
  destruct (nth_some _ _ _ L3 L) as [F EF]. destruct (nth_some _ _ _ L4 L) as [ph Eph].
  destruct (nth_some _ _ _ L5 L) as [ch Ech]. destruct (nth_some _ _ i eq_refl L) as [p Ep].
  exists p, t, H, F, ph, ch.
  assert (A : at_port P w i p t H F ph ch) by (repeat split; assumption).
  split; [exact A|]. exact (mi_ports _ _ _ _ _ M _ _ _ _ _ _ _ A).
Qed.

Lemma port_at' P w hd last clean i ph ch : minv P w hd last clean ->
  nth_error (w_sph w) i = Some ph -> nth_error (w_chan w) i = Some ch ->
  exists p t H F, at_port P w i p t H F ph ch /\
    pinv P (w_disk w) (rs_ckpts (w_r w)) hd last clean i p t H F ph ch.
Proof.
  intros M E1 E2. assert (L : (i < length (tp_ports P))%nat).
  { destruct (mi_len _ _ _ _ _ M) as (_ & _ & _ & <- & _). apply nth_error_Some; congruence. }
  destruct (port_at _ _ _ _ _ _ M L) as (p & t & H & F & ph' & ch' & A & Pi).
  pose proof A as (_ & _ & _ & _ & A5 & A6). rewrite E1 in A5; injection A5 as <-. rewrite E2 in A6; injection A6 as <-.
  eauto 8.
Qed.

(** Nothing but the port's phase and connections moves. *)
Lemma minv_quiet P w w' i p t H F ph ch ph' ch' hd last clean :
  minv P w hd last clean -> at_port P w i p t H F ph ch ->
  w_s w' = w_s w -> w_r w' = w_r w -> w_disk w' = w_disk w -> w_init w' = w_init w ->
  w_refused w' = w_refused w ->
  w_sph w' = set_nth (w_sph w) i ph' -> w_chan w' = set_nth (w_chan w) i ch' ->
  pinv P (w_disk w) (rs_ckpts (w_r w)) hd last clean i p t H F ph' ch' ->
  minv P w' hd last clean.
Proof.
  intros M A Es Er Ed Ei Ef Ep Ec Pi. pose proof A as (_ & A2 & A3 & A4 & _).
  eapply minv_send; try eassumption.
  - apply moved_send; try assumption; rewrite Es; symmetry; apply set_nth_id; assumption.
  - auto.
  - auto.
  - rewrite Es. exact (mi_blocks _ _ _ _ _ M).
  - intros j Hj. rewrite Es, Ei. exact (mi_clean _ _ _ _ _ M j Hj).
  - intros Hm. rewrite Ef. exact (mi_ref _ _ _ _ _ M Hm).
Qed.

Lemma credit_wire P d G hd last clean i p t H F ph ch h :
  pinv P d G hd last clean i p t H F ph ch -> tp_seqids P = true \/ tp_mode P <> Plain ->
  credit_ok d (wire P (rt_ck t)) h.
Proof.
  intros [] Hs x Hx. rewrite mark_about in Hx. destruct (about (wire P (rt_ck t)) h) eqn:Ea; [|lia].
  cbn in Hx. destruct pi_part as [B C]. destruct Hs as [Hs|Hs].
  - unfold about in Ea. cbn in Ea. rewrite Hs in Ea. cbn in Ea. apply andb_prop in Ea as [E1 E2].
    apply Z.eqb_eq in E1, E2. rewrite <- E1. apply C. lia.
  - rewrite (pi_nopart Hs) in Hx. lia.
Qed.

Lemma okb_same d h h' : h_src h' = h_src h -> h_o h' = h_o h -> h_n h' = h_n h -> okb d h -> okb d h'.
Proof. unfold okb. intros -> -> ->. auto. Qed.

Lemma open_okb d b h e h' : openSource b h = (e, h') -> okb d h -> okb d h'.
Proof.
  unfold openSource. destruct (_ =? _); intros E; injection E as <- <-; [auto|]. apply okb_same; reflexivity.
Qed.

Lemma oks_upd d s i q fl hi ts fa fl0 hi0 : oks d s -> nth_error (sn_flight s) i = Some fl0 ->
  nth_error (sn_hist s) i = Some hi0 ->
  Forall (okb d) q -> (forall h, fl = Some h -> okb d h) -> Forall (okb d) (hi_list hi) -> Forall (okb d) fa ->
  oks d (upd_thread s i q fl hi ts fa).
Proof.
  intros (O1 & O2 & O3 & O4) E1 E2 Q1 Q2 Q3 Q4. unfold oks, upd_thread; cbn [sn_queue sn_flight sn_hist sn_failed].
  split; [exact Q1|]. split; [|split; [apply Forall_set; assumption|exact Q4]].
  intros h Hh. apply in_set_nth in Hh as [Eh|Hh]; auto.
Qed.

Lemma port_index_spec ports p k : port_index ports p = Some k -> nth_error ports k = Some p.
Proof.
  revert k. induction ports as [|q r IH]; intros k E; cbn in E; [discriminate|].
  destruct (Z.eqb_spec q p) as [-> | Hn]; [injection E as <-; reflexivity|].
  destruct (port_index r p) as [m|]; [|discriminate]. injection E as <-. cbn. auto.
Qed.
Lemma port_index_none ports p k : port_index ports p = None -> nth_error ports k <> Some p.
Proof.
  revert k. induction ports as [|q r IH]; intros k E; cbn in E; [destruct k; discriminate|].
  destruct (Z.eqb_spec q p) as [-> | Hn]; [discriminate|]. destruct k as [|k]; cbn; [congruence|].
  apply IH. destruct (port_index r p); [discriminate|reflexivity].
Qed.
Lemma nodup_nth {A} (l : list A) i j x : NoDup l -> nth_error l i = Some x -> nth_error l j = Some x -> i = j.
Proof.
  intros N E1 E2. rewrite NoDup_nth_error in N. apply N; [apply nth_error_Some; congruence|congruence].
Qed.

(** What a told checkpoint is. *)
Lemma told_who P w hd last clean c' : minv P w hd last clean -> In c' (rs_ckpts (w_r w)) ->
  exists k p t H F ph ch, at_port P w k p t H F ph ch /\
    pinv P (w_disk w) (rs_ckpts (w_r w)) hd last clean k p t H F ph ch /\
    over (rt_ph t) = true /\ c' = rt_ck t /\ p = ck_port c'.
Proof.
  intros M I. destruct (mi_G _ _ _ _ _ M _ I) as (k & t & E1 & E2 & E3).
  assert (L : (k < length (tp_ports P))%nat).
  { destruct (mi_len _ _ _ _ _ M) as (<- & _). apply nth_error_Some; congruence. }
  destruct (port_at _ _ _ _ _ _ M L) as (p & t' & H & F & ph & ch & A & Pi).
  pose proof A as (_ & A2 & _). rewrite E1 in A2; injection A2 as <-.
  exists k, p, t, H, F, ph, ch. split; [exact A|]. split; [exact Pi|]. split; [exact E2|]. split; [exact E3|].
  rewrite E3. symmetry. exact (pi_port _ _ _ _ _ _ _ _ _ _ _ _ _ Pi).
Qed.

Definition outcome_ok (P : tparams) (w : world) : Prop :=
  (tp_mode P = Plain /\ w_refused w = true) \/ exists hd last clean, minv P w hd last clean.

Ltac setup M A :=
  let Pi := fresh "Pi" in let EF := fresh "EF" in let EH := fresh "EH" in
  pose proof (mi_ports _ _ _ _ _ M _ _ _ _ _ _ _ A) as Pi;
  pose proof (proj1 (proj2 (proj2 (proj2 A)))) as EF;
  pose proof (proj1 (proj2 (proj2 A))) as EH.

Lemma quiet P w hd last clean i p t H F ph ch ph' ch' w' :
  minv P w hd last clean -> at_port P w i p t H F ph ch -> tp_seqids P = true \/ tp_mode P <> Plain ->
  pinv P (w_disk w) (rs_ckpts (w_r w)) hd last clean i p t H F ph' ch' ->
  w' = with_ph (with_chan w i ch') i ph' -> outcome_ok P w'.
Proof.
  intros M A Seq. setup M A.
  intros Q ->. right. exists hd, last, clean. eapply minv_quiet; try eassumption; reflexivity.
Qed.

Lemma chan_id P w hd last clean i p t H F ph ch :
  minv P w hd last clean -> at_port P w i p t H F ph ch -> tp_seqids P = true \/ tp_mode P <> Plain ->
  with_chan w i ch = w.
Proof.
  intros M A Seq. setup M A.
  destruct A as (_ & _ & _ & _ & _ & A6). unfold with_chan. rewrite (set_nth_id _ _ _ A6). destruct w; reflexivity.
Qed.
Lemma ph_id P w hd last clean i p t H F ph ch c :
  minv P w hd last clean -> at_port P w i p t H F ph ch -> tp_seqids P = true \/ tp_mode P <> Plain ->
  with_ph (with_chan w i c) i ph = with_chan w i c.
Proof.
  intros M A Seq. setup M A.
  pose proof A as (_ & _ & _ & _ & A5 & _). unfold with_ph, with_chan; cbn.
  rewrite (set_nth_id _ _ _ A5). reflexivity.
Qed.

Lemma quit_ok P w hd last clean i p t H F ph ch ph' :
  minv P w hd last clean -> at_port P w i p t H F ph ch -> tp_seqids P = true \/ tp_mode P <> Plain ->
  F = None -> ph <> SErr -> ph' = SConnect false \/ ph' = SErr -> outcome_ok P (with_ph w i ph').
Proof.
  intros M A Seq. setup M A.
  intros Fn Np Hp. eapply quiet with (ph' := ph') (ch' := ch); [exact M|exact A|exact Seq| |].
  - eapply quit_inv; eassumption.
  - erewrite chan_id by eassumption. reflexivity.
Qed.

Lemma take_ok P w hd last clean i p t H F ph ch j b s' :
  minv P w hd last clean -> at_port P w i p t H F ph ch -> tp_seqids P = true \/ tp_mode P <> Plain ->
  ph = SSend -> sn_step (w_s w) (ATake i j b) = Some (Ret s') -> outcome_ok P (with_s w s').
Proof.
  intros M A Seq. setup M A.
  intros -> E. cbn in E. unfold nthd in E. rewrite EF, EH in E.
  destruct F as [|] eqn:Fe; [discriminate|].
  destruct (nth_error (sn_stats (w_s w)) i) as [ts|] eqn:Et; [|discriminate].
  destruct (nth_error (sn_queue (w_s w)) j) as [h|] eqn:Eh; [|discriminate].
  destruct (openSource b h) as [e h'] eqn:Eo.
  pose proof (mi_blocks _ _ _ _ _ M) as Ob. pose proof Ob as (O1 & O2 & O3 & O4).
  pose proof (Forall_in_nth _ _ _ _ O1 Eh) as Oh. pose proof (open_okb _ _ _ _ _ Eo Oh) as Oh'.
  pose proof (Forall_in_nth _ _ _ _ O3 EH) as OH. cbn beta in OH.
  assert (Oq : Forall (okb (w_disk w)) (remove_nth (sn_queue (w_s w)) j)) by (apply Forall_remove, O1).
  assert (Cl : forall k, clean k = true -> False).
  { intros k Hk. destruct (mi_clean _ _ _ _ _ M k Hk) as [Q _]. rewrite Q in Eh. destruct j; discriminate. }
  right. exists hd, last, clean.
  pose proof A as (A1 & A2 & A3 & A4 & A5 & A6).
  destruct (e =? OK); injection E as <-; (eapply minv_send with (H' := H) (ph' := SSend) (ch' := ch);
    [exact M|exact A| | reflexivity|reflexivity|auto|auto|eapply take_inv; exact Pi| | |exact (mi_ref _ _ _ _ _ M)]);
    try (apply moved_send; try reflexivity; try assumption; symmetry; apply set_nth_id; assumption);
    try (intros k Hk; destruct (Cl k Hk)).
  - eapply oks_upd; try eassumption. intros x Hx. injection Hx as <-. exact Oh'.
  - eapply oks_upd; try eassumption; [discriminate|]. apply Forall_app. split; [exact O4|]. constructor; [exact Oh'|constructor].
Qed.

Lemma sent_ok P w hd last clean i p t H F ph ch h r got m s' :
  minv P w hd last clean -> at_port P w i p t H F ph ch -> tp_seqids P = true \/ tp_mode P <> Plain ->
  ph = SSend -> F = Some h -> leaves h r got = Some m ->
  sn_step (w_s w) (ASend i r) = Some (Ret s') ->
  outcome_ok P (let w1 := with_chan (with_s w s') i (put_up ch m) in
                match r with SentAll _ => w1 | _ => with_ph w1 i (SConnect false) end).
Proof.
  intros M A Seq. setup M A.
  intros Ep Ef El E. subst ph F. cbn in E. unfold nthd in E. rewrite EF, EH in E.
  destruct (nth_error (sn_stats (w_s w)) i) as [ts|] eqn:Et; [|discriminate].
  unfold addSource in E.
  assert (Gl : hi_global H = false).
  { apply Bool.not_true_is_false. intros Eg. pose proof (pi_hglob _ _ _ _ _ _ _ _ _ _ _ _ _ Pi Eg). discriminate. }
  rewrite Gl in E. injection E as <-.
  set (h' := addTransferStats h (sendStats h r)).
  assert (Kh : keyof h' = keyof h) by reflexivity.
  assert (Km : ukey m = [keyof h]).
  { unfold leaves in El. destruct r as [n|c n dd]; [injection El as <-; reflexivity|].
    destruct (_ && _); [|discriminate]. injection El as <-. destruct (got =? _); reflexivity. }
  pose proof (mi_blocks _ _ _ _ _ M) as Ob. pose proof Ob as (O1 & O2 & O3 & O4).
  assert (Oh : okb (w_disk w) h) by (apply O2; eapply nth_error_In, EF).
  assert (Oh' : okb (w_disk w) h') by exact Oh.
  pose proof (Forall_in_nth _ _ _ _ O3 EH) as OH. cbn beta in OH.
  rewrite app_nil_r.
  set (H' := {| hi_list := hi_list H ++ [h']; hi_global := hi_global H; hi_acked := hi_acked H; hi_last := hi_last H; hi_inUse := hi_inUse H |}).
  assert (Q : pinv P (w_disk w) (rs_ckpts (w_r w)) hd last clean i p t H' None SSend (put_up ch m)).
  { eapply sent_inv; try eassumption; reflexivity. }
  set (ph' := match r with SentAll _ => SSend | _ => SConnect false end).
  assert (Q' : pinv P (w_disk w) (rs_ckpts (w_r w)) hd last clean i p t H' None ph' (put_up ch m)).
  { unfold ph'. destruct r; [exact Q|]. eapply quit_inv; [exact Q|reflexivity|discriminate|left; reflexivity]. }
  right. exists hd, last, clean.
  pose proof A as (A1 & A2 & A3 & A4 & A5 & A6).
  unfold H' in *. clear H'. rewrite Gl in Q'.
  eapply minv_send with (ph' := ph') (ch' := put_up ch m); [exact M|exact A| | | | | |exact Q'| | |];
    try (destruct r; exact (mi_ref _ _ _ _ _ M)); try (destruct r; reflexivity); auto.
  - apply moved_send; [exact A2|destruct r; reflexivity| | | |destruct r; reflexivity].
    + destruct r; reflexivity.
    + destruct r; reflexivity.
    + destruct r; cbn; [symmetry; apply set_nth_id, A5|reflexivity].
  - assert (Ox : oks (w_disk w) (upd_thread (w_s w) i (sn_queue (w_s w)) None
        {| hi_list := hi_list H ++ [h']; hi_global := false; hi_acked := hi_acked H; hi_last := hi_last H; hi_inUse := hi_inUse H |}
        (stats_add ts (sendStats h r)) (sn_failed (w_s w)))).
    { eapply oks_upd; try eassumption; [discriminate|]. cbn. apply Forall_app. split; [exact OH|]. constructor; [exact Oh'|constructor]. }
    destruct r; exact Ox.
  - intros k Hk. pose proof (mi_clean _ _ _ _ _ M k Hk) as Cx. destruct r; exact Cx.
Qed.

Lemma done_ok P w hd last clean i p t H F ph ch :
  minv P w hd last clean -> at_port P w i p t H F ph ch -> tp_seqids P = true \/ tp_mode P <> Plain ->
  ph = SSend -> F = None -> sn_queue (w_s w) = [] -> w_init w = true ->
  outcome_ok P (with_ph (with_chan w i (put_up ch UDone)) i SReadCmd).
Proof.
  intros M A Seq. setup M A.
  intros Ep Ef Eq Ei. subst ph F.
  right. exists hd, last, (fun k => if Nat.eqb k i then true else clean k).
  pose proof A as (A1 & A2 & A3 & A4 & A5 & A6).
  eapply minv_send with (ph' := SReadCmd) (ch' := put_up ch UDone) (H' := H) (F' := None);
    [exact M|exact A| | | | | | | | |]; try reflexivity; auto.
  - apply moved_send; try reflexivity; try assumption; symmetry; apply set_nth_id; assumption.
  - intros j Hn L. split; [exact L|]. apply Nat.eqb_neq in Hn. rewrite Hn. reflexivity.
  - eapply done_inv; [exact Pi|]. rewrite Nat.eqb_refl. reflexivity.
  - exact (mi_blocks _ _ _ _ _ M).
  - exact (mi_ref _ _ _ _ _ M).
Qed.

Lemma ack_ok P w hd last clean i p t H F ph ch s' ph' ch' :
  minv P w hd last clean -> at_port P w i p t H F ph ch -> tp_seqids P = true \/ tp_mode P <> Plain ->
  F = None -> sn_step (w_s w) (AAckAll i) = Some (Ret s') ->
  pinv P (w_disk w) (rs_ckpts (w_r w)) hd last clean i p t (markAllAcknowledged H) None ph' ch' ->
  outcome_ok P (with_ph (with_chan (with_s w s') i ch') i ph').
Proof.
  intros M A Seq. setup M A.
  intros Ef E Q. subst F. cbn in E. unfold nthd in E. rewrite EF, EH in E.
  destruct (nth_error (sn_stats (w_s w)) i) as [ts|] eqn:Et; [|discriminate]. injection E as <-.
  right. exists hd, last, clean.
  pose proof A as (A1 & A2 & A3 & A4 & A5 & A6).
  pose proof (mi_blocks _ _ _ _ _ M) as Ob. pose proof Ob as (O1 & O2 & O3 & O4).
  pose proof (Forall_in_nth _ _ _ _ O3 EH) as OH. cbn beta in OH.
  eapply minv_send with (ph' := ph') (ch' := ch'); [exact M|exact A| | | | | |exact Q| | |]; try reflexivity; auto.
  - apply moved_send; try reflexivity; assumption.
  - eapply oks_upd; try eassumption. discriminate.
  - exact (mi_clean _ _ _ _ _ M).
  - exact (mi_ref _ _ _ _ _ M).
Qed.

Lemma cmd_ok P w hd last clean i p t H F ph ch w' :
  minv P w hd last clean -> at_port P w i p t H F ph ch -> tp_seqids P = true \/ tp_mode P <> Plain ->
  ph = SReadCmd -> sender_step P w i ph ch (TCmd i) = Some (Ret w') -> outcome_ok P w'.
Proof.
  intros M A Seq. setup M A.
  intros Ep E. subst ph. assert (Ef : F = None) by (apply (pi_fl _ _ _ _ _ _ _ _ _ _ _ _ _ Pi); discriminate).
  pose proof Pi as Q. rewrite Ef in Q. cbn in E.
  destruct (take_down ch) as [[m ch']|] eqn:Et; [|discriminate].
  destruct (take_down_drained _ _ _ Et) as (En & Er & r & Ed & Dr).
  destruct m as [c|cs| |].
  - injection E as <-. eapply quiet; [exact M|exact A|exact Seq| |reflexivity].
    assert (Q' : pinv P (w_disk w) (rs_ckpts (w_r w)) hd last clean i p t H None SReadCmd ch').
    { eapply read_cmd_inv; try eassumption; try reflexivity. intros; discriminate. }
    rewrite Ef. destruct (_ && _); [exact Q'|]. eapply quit_inv; [exact Q'|reflexivity|discriminate|right; reflexivity].
  - unfold does in E. destruct (sn_step (w_s w) (AAckAll i)) as [[s'| |]|] eqn:Es; try discriminate. injection E as <-.
    eapply ack_ok; try eassumption. eapply read_err_inv; try eassumption; reflexivity.
  - unfold does in E. destruct (sn_step (w_s w) (AAckAll i)) as [[s'| |]|] eqn:Es; try discriminate. injection E as <-.
    assert (K : outcome_ok P (with_ph (with_chan (with_s w s') i ch') i SReadCmd)).
    { eapply ack_ok; try eassumption. eapply read_cmd_inv; try eassumption; try reflexivity. intros; discriminate. }
    pose proof A as (_ & _ & _ & _ & A5 & _).
    replace (with_chan (with_s w s') i ch') with (with_ph (with_chan (with_s w s') i ch') i SReadCmd); [exact K|].
    unfold with_ph, with_chan; cbn. rewrite (set_nth_id _ _ _ A5). reflexivity.
  - exfalso. apply (pi_done _ _ _ _ _ _ _ _ _ _ _ _ _ Pi). rewrite Ed. left; reflexivity.
Qed.

Lemma local_ok P w hd last clean i p t H F ph ch w' :
  minv P w hd last clean -> at_port P w i p t H F ph ch -> tp_seqids P = true \/ tp_mode P <> Plain ->
  ph = SReadLocal -> sender_step P w i ph ch (TLocal i) = Some (Ret w') -> outcome_ok P w'.
Proof.
  intros M A Seq. setup M A.
  intros Ep E. subst ph. assert (Ef : F = None) by (apply (pi_fl _ _ _ _ _ _ _ _ _ _ _ _ _ Pi); discriminate).
  pose proof Pi as Q. rewrite Ef in Q. cbn in E.
  destruct (take_down ch) as [[m ch']|] eqn:Et; [|discriminate].
  destruct (take_down_drained _ _ _ Et) as (En & Er & r & Ed & Dr).
  pose proof (drain_local _ _ _ _ _ _ _ _ _ _ _ _ _ _ _ Q En Ed Dr) as Qd.
  assert (Qe : pinv P (w_disk w) (rs_ckpts (w_r w)) hd last clean i p t H F SErr ch').
  { rewrite Ef. eapply quit_inv; [exact Qd|reflexivity|discriminate|right; reflexivity]. }
  destruct m as [c|cs| |];
    try (injection E as <-; eapply quiet; [exact M|exact A|exact Seq|exact Qe|reflexivity]).
  pose proof (pi_local _ _ _ _ _ _ _ _ _ _ _ _ _ Pi eq_refl) as (Lu & Lr). destruct (Lr En) as (L1 & L2 & L3 & L4 & L5).
  destruct (L3 c) as [Ec Eu]; [rewrite Ed; left; reflexivity|].
  destruct (negb _); [injection E as <-; eapply quiet; [exact M|exact A|exact Seq|exact Qe|reflexivity]|].
  destruct (Z.eqb_spec (ck_numBlocks c) (-1)) as [Eb|_].
  { exfalso. pose proof (pi_n0 _ _ _ _ _ _ _ _ _ _ _ _ _ Pi) as K. rewrite Ec in Eb. cbn in Eb. lia. }
  unfold does in E. destruct (sn_step (w_s w) (ALocal i c)) as [[s'| |]|] eqn:Es; try discriminate. injection E as <-.
  cbn in Es. unfold nthd in Es. rewrite EF, EH, Ef in Es.
  destruct (nth_error (sn_stats (w_s w)) i) as [ts|] eqn:Ets; [|discriminate].
  assert (EF' : nth_error (sn_flight (w_s w)) i = Some None) by (rewrite EF, Ef; reflexivity).
  assert (CK : Forall (credit_ok (w_disk w) c) (skipn (Z.to_nat (ck_numBlocks c)) (hi_list H))).
  { rewrite Ec at 1. apply Forall_forall. intros x _. eapply credit_wire; eassumption. }
  destruct (apply_ckpt_inv (w_disk w) _ _ _ _ _ _ _ _ (mi_blocks _ _ _ _ _ M) EF' EH Ets CK Es)
    as (hi' & B1 & B2 & B3 & B4 & B5).
  pose proof A as (A1 & A2 & A3 & A4 & A5 & A6).
  destruct (refuses (w_s w) i c false).
  - destruct B5 as [-> Bq]. right. exists hd, last, clean.
    eapply minv_send with (ph' := SErr) (ch' := ch') (H' := H) (F' := None); [exact M|exact A| | | | | | |exact B3| |]; try reflexivity; auto.
    + apply moved_send; try reflexivity; assumption.
    + rewrite <- Ef at 1. exact Qe.
    + intros k Hk. cbn. rewrite Bq. exact (mi_clean _ _ _ _ _ M k Hk).
    + exact (mi_ref _ _ _ _ _ M).
  - destruct B5 as (B5 & B6 & B7 & B8 & B9).
    assert (Ru : rup ch = []) by (rewrite <- (cur_up_none _ En); exact Lu).
    assert (Nw : waitp (rt_ph t) = false) by (destruct (rt_ph t); cbn in *; congruence).
    assert (Nd : ~ In i hd) by (intros K; destruct (pi_hd _ _ _ _ _ _ _ _ _ _ _ _ _ Pi K); discriminate).
    assert (M' : minv P w hd (Some i) (fun _ => false)).
    { eapply rebase; try eassumption. rewrite Ru. intros []. }
    pose proof (mi_ports _ _ _ _ _ M' _ _ _ _ _ _ _ A) as Q'. rewrite Ef in Q'.
    pose proof (drain_local _ _ _ _ _ _ _ _ _ _ _ _ _ _ _ Q' En Ed Dr) as Qd'.
    right. exists hd, (Some i), (fun _ => false).
    eapply minv_send with (ph' := SSend) (ch' := ch') (H' := hi') (F' := None); [exact M'|exact A| | | | | | |exact B3| |]; try reflexivity; auto.
    + apply moved_send; try reflexivity; assumption.
    + eapply local_ok_inv; try eassumption.
      * destruct Dr as (_ & _ & -> & _). exact En.
      * rewrite B7, Ec. reflexivity.
      * apply Bool.not_true_is_false. intros K. destruct (B9 K) as [K'|K']; [|discriminate].
        pose proof (pi_hglob _ _ _ _ _ _ _ _ _ _ _ _ _ Pi K'). discriminate.
    + intros k Hk; discriminate.
    + exact (mi_ref _ _ _ _ _ M).
Qed.

Lemma global_ok P w hd last clean i p t H F ph ch w' :
  minv P w hd last clean -> at_port P w i p t H F ph ch -> tp_seqids P = true \/ tp_mode P <> Plain ->
  NoDup (tp_ports P) -> (exists cs, ph = SGlobal cs) ->
  sender_step P w i ph ch (TGlobal i) = Some (Ret w') -> outcome_ok P w'.
Proof.
  intros M A Seq. setup M A.
  intros Nd [cs Ep] E. subst ph. destruct cs as [|c cs]; [discriminate|]. cbn in E.
  assert (Ef : F = None) by (apply (pi_fl _ _ _ _ _ _ _ _ _ _ _ _ _ Pi); discriminate).
  pose proof (pi_glob _ _ _ _ _ _ _ _ _ _ _ _ _ Pi _ eq_refl) as (G1 & G2 & G3 & G4).
  destruct (proj2 (pi_from _ _ _ _ _ _ _ _ _ _ _ _ _ Pi) _ c eq_refl (or_introl eq_refl)) as (c' & Ic & Ec).
  destruct (told_who _ _ _ _ _ _ M Ic) as (k & pk & tk & Hk & Fk & phk & chk & Ak & Pk & Ok & Ek & Epk).
  pose proof Ak as (K1 & K2 & K3 & K4 & K5 & K6).
  assert (Ec2 : ck_port c = pk) by (rewrite Ec, wire_port; auto). rewrite Ec2 in E.
  destruct (port_index (tp_ports P) pk) as [k'|] eqn:Ei; [|exfalso; exact (port_index_none _ _ _ Ei K1)].
  apply port_index_spec in Ei. assert (k' = k) by (eapply nodup_nth; eassumption). subst k'.
  rewrite K5 in E. destruct (ended phk) eqn:Ee; [|discriminate].
  assert (phk = SErr).
  { destruct phk; try discriminate; [|reflexivity]. destruct (pi_ph _ _ _ _ _ _ _ _ _ _ _ _ _ Pk); congruence. }
  subst phk.
  assert (Fk = None) by (apply (pi_fl _ _ _ _ _ _ _ _ _ _ _ _ _ Pk); discriminate). subst Fk.
  pose proof A as (A1 & A2 & A3 & A4 & A5 & A6).
  assert (Hik : i <> k) by (intros ->; congruence).
  unfold does in E. destruct (sn_step (w_s w) (AGlobal k c)) as [[s'| |]|] eqn:Es; try discriminate. injection E as <-.
  cbn in Es. unfold nthd in Es. rewrite K4, K3 in Es.
  destruct (nth_error (sn_stats (w_s w)) k) as [ts|] eqn:Ets; [|discriminate].
  assert (Ecw : c = wire P (rt_ck tk)) by congruence.
  assert (CK : Forall (credit_ok (w_disk w) c) (skipn (Z.to_nat (ck_numBlocks c)) (hi_list Hk))).
  { rewrite Ecw at 1. apply Forall_forall. intros x _. eapply credit_wire; eassumption. }
  destruct (apply_ckpt_inv (w_disk w) _ _ _ _ _ _ _ _ (mi_blocks _ _ _ _ _ M) K4 K3 Ets CK Es)
    as (hi' & B1 & B2 & B3 & B4 & B5).
  destruct (refuses (w_s w) k c true) eqn:Er.
  - destruct (tp_mode P) eqn:Em; [left; split; [exact Em|cbn; apply Bool.orb_true_r]|exfalso|exfalso].
    all: unfold refuses in Er; rewrite K3, Ets in Er.
    all: destruct (setCheckpoint Hk ts c true) as [[[[e h1] t1] r1]| |] eqn:Esc; try discriminate.
    all: apply Z.eqb_eq in Er; subst e.
    all: destruct (setCheckpoint_inv _ _ _ _ _ _ _ _ Esc) as [(_ & -> & -> & ->)|(K & _)]; [|congruence].
    all: apply contradicts_refused in Esc; destruct Pk.
    all: assert (Np : tp_mode P <> Plain) by congruence.
    all: assert (Pn0 : ck_numBlocks c = ck_numBlocks (rt_ck tk)) by (rewrite Ecw; reflexivity).
    all: assert (Pb : ck_lastBlockReceivedBytes c = 0) by (rewrite Ecw; cbn; exact (pi_nopart Np)).
    all: destruct Esc as [C|(l & El & [C|(C1 & _ & _ & C2)])];
      [unfold nb in pi_len; lia|destruct (pi_last Np _ El); lia|destruct (pi_last Np _ El); lia].
  - destruct B5 as (B5 & B6 & B7 & B8 & B9).
    assert (Nw : waitp (rt_ph t) = false).
    { apply Bool.not_true_is_false; intros K.
      assert (Hh : held (rt_ph t) = true) by (destruct (rt_ph t); cbn in *; congruence).
      destruct (pi_wait _ _ _ _ _ _ _ _ _ _ _ _ _ Pi Hh) as (_ & _ & _ & _ & K' & _). exact (K' _ eq_refl). }
    assert (Nh : ~ In i hd) by (intros K; destruct (pi_hd _ _ _ _ _ _ _ _ _ _ _ _ _ Pi K); discriminate).
    assert (M' : minv P w hd (Some i) (fun _ => false)).
    { eapply rebase; try eassumption. rewrite G2. intros []. }
    set (w1 := with_refused (with_s w s') false).
    assert (M1 : minv P w1 (k :: hd) (Some i) (fun _ => false)).
    { eapply (minv_mk P w w1 k pk tk Hk None SErr chk tk hi' None SErr chk hd (k :: hd) (Some i) (Some i)
                (fun _ => false) (fun _ => false) [] []); [exact M'|exact Ak| | | | | | | | | | | | | | |].
      - apply moved_send; try reflexivity; try assumption; symmetry; apply set_nth_id; assumption.
      - rewrite app_nil_r; reflexivity.
      - rewrite app_nil_r; reflexivity.
      - exact (mi_abort _ _ _ _ _ M).
      - exact (mi_gone _ _ _ _ _ M).
      - intros x Hx; right; exact Hx.
      - intros j Hj [K|K]; [congruence|exact K].
      - intros j Hj K; split; [exact K|reflexivity].
      - auto.
      - intros x [].
      - auto.
      - pose proof (mi_ports _ _ _ _ _ M' _ _ _ _ _ _ _ Ak) as Q'.
        eapply global_k_inv; try eassumption; [congruence|]. rewrite B7, Ecw. reflexivity.
      - exact B3.
      - intros j Hj; discriminate.
      - intros Hm. cbn. rewrite (mi_ref _ _ _ _ _ M Hm). reflexivity. }
    assert (A' : at_port P w1 i p t H F (SGlobal (c :: cs)) ch).
    { unfold w1. repeat split; cbn; try assumption.
      - rewrite B1, nth_set_other by congruence. exact A3.
      - rewrite B2, nth_set_other by congruence. exact A4. }
    right. exists (k :: hd), (Some i), (fun _ => false).
    eapply minv_quiet with (ph' := after_global cs) (ch' := ch); [exact M1|exact A'| | | | | | | |]; try reflexivity.
    + cbn. symmetry; apply set_nth_id, A6.
    + pose proof (mi_ports _ _ _ _ _ M1 _ _ _ _ _ _ _ A') as Q1. rewrite Ef in Q1 |- *.
      eapply global_i_inv; [exact Q1|]. intros x Hx. exists k. split; [left; reflexivity|].
      rewrite K1. rewrite <- Ec2, <- Hx, wire_port. reflexivity.
Qed.


Lemma sender_ok_step P w hd last clean e w' i : NoDup (tp_ports P) ->
  tp_seqids P = true \/ tp_mode P <> Plain ->
  minv P w hd last clean -> port_of e = Some i -> (forall a, e <> TRecv i a) -> (forall m a, e <> TAccept i m a) ->
  t_step P w e = Some (Ret w') -> outcome_ok P w'.
Proof.
  intros Nd Sq M Ep N1 N2 E.
  assert (E' : exists ph ch, nth_error (w_sph w) i = Some ph /\ nth_error (w_chan w) i = Some ch /\
                 sender_step P w i ph ch e = Some (Ret w')).
  { unfold t_step in E. destruct e; try discriminate; injection Ep as ->; cbn [port_of] in E;
      destruct (nth_error (w_sph w) i) as [ph|] eqn:E1; try discriminate;
      destruct (nth_error (w_chan w) i) as [ch|] eqn:E2; try discriminate;
      try (exists ph, ch; repeat split; assumption); exfalso; [eapply N1|eapply N2]; reflexivity. }
  clear E. destruct E' as (ph & ch & E1 & E2 & E).
  destruct (port_at' _ _ _ _ _ _ _ _ M E1 E2) as (p & t & H & F & A & Pi).
  pose proof A as (_ & _ & _ & A4 & _). 
  assert (Id : match nth_error (sn_flight (w_s w)) i with Some None => true | _ => false end =
               match F with None => true | _ => false end) by (rewrite A4; reflexivity).
  destruct e; try discriminate; injection Ep as ->.
  - destruct ph; try discriminate. injection E as <-.
    eapply quiet; [exact M|exact A|exact Sq|eapply dial_inv; exact Pi|]. symmetry. eapply ph_id; eassumption.
  - destruct ph; try discriminate. injection E as <-.
    eapply quiet; [exact M|exact A|exact Sq|eapply connect_inv; exact Pi|reflexivity].
  - assert (Fn : ph <> SSend -> F = None) by exact (pi_fl _ _ _ _ _ _ _ _ _ _ _ _ _ Pi).
    destruct ph; try discriminate; cbn in E; rewrite ?Id in E;
      try (destruct F; [discriminate|]); injection E as <-;
      (eapply quit_ok; [exact M|exact A|exact Sq|first [reflexivity|apply Fn; discriminate]|discriminate|left; reflexivity]).
  - assert (Fn : ph <> SSend -> F = None) by exact (pi_fl _ _ _ _ _ _ _ _ _ _ _ _ _ Pi).
    destruct ph; try discriminate; cbn in E; rewrite ?Id in E;
      try (destruct F; [discriminate|]); injection E as <-;
      (eapply quit_ok; [exact M|exact A|exact Sq|first [reflexivity|apply Fn; discriminate]|discriminate|right; reflexivity]).
  - destruct ph; try discriminate. unfold sender_step, does in E.
    destruct (sn_step (w_s w) (ATake i j opened)) as [[s'| |]|] eqn:Es; try discriminate. injection E as <-.
    eapply take_ok; [exact M|exact A|exact Sq|reflexivity|exact Es].
  - destruct ph; try discriminate. unfold sender_step in E. rewrite A4 in E.
    destruct F as [h|]; [|discriminate]. destruct (leaves h r got) as [m|] eqn:El; [|discriminate].
    unfold does in E. destruct (sn_step (w_s w) (ASend i r)) as [[s'| |]|] eqn:Es; try discriminate. injection E as <-.
    eapply sent_ok; [exact M|exact A|exact Sq|reflexivity|reflexivity|exact El|exact Es].
  - destruct ph; try discriminate. unfold sender_step in E. rewrite Id in E.
    destruct (sn_queue (w_s w)) eqn:Eq; [|discriminate]. destruct (w_init w) eqn:Ei; [|discriminate].
    destruct F; [discriminate|]. cbn in E. injection E as <-.
    eapply done_ok; try eassumption; reflexivity.
  - destruct ph; try discriminate. eapply local_ok; try eassumption; reflexivity.
  - destruct ph; try discriminate. eapply cmd_ok; try eassumption; reflexivity.
  - destruct ph; try discriminate. eapply global_ok; try eassumption. eexists; reflexivity.
  - destruct ph; try discriminate. destruct (pi_ph _ _ _ _ _ _ _ _ _ _ _ _ _ Pi); congruence.
Qed.
