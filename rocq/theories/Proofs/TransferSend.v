From Verif Require Import Proofs.QueueMonitorFacts Proofs.HistoryFacts Proofs.RecvSessionFacts.
From Verif Require Export Proofs.TransferInv.
From Coq Require Import Lia Permutation.

Ltac ands := repeat match goal with |- _ /\ _ => split; [assumption|] end.

(** ** Steps that move one port *)

Lemma set_nth_id {A} (l : list A) : forall i x, nth_error l i = Some x -> set_nth l i x = l.
Proof. induction l as [|a l IH]; intros [|i] x E; cbn in *; try discriminate; [congruence|]. rewrite IH; auto. Qed.

Definition moved (w w' : world) (i : nat) (t : rthread) (H : history) (F : option hsrc)
  (ph : sphase) (ch : chan) : Prop :=
  rs_threads (w_r w') = set_nth (rs_threads (w_r w)) i t /\
  sn_hist (w_s w') = set_nth (sn_hist (w_s w)) i H /\
  sn_flight (w_s w') = set_nth (sn_flight (w_s w)) i F /\
  w_sph w' = set_nth (w_sph w) i ph /\ w_chan w' = set_nth (w_chan w) i ch.

Lemma nth_set_inv {A} (l : list A) i x j y : nth_error (set_nth l i x) j = Some y ->
  (j = i /\ y = x) \/ (j <> i /\ nth_error l j = Some y).
Proof.
  intros E. destruct (Nat.eq_dec j i) as [-> | Hn].
  - left. split; [reflexivity|].
    assert (L : (i < length (set_nth l i x))%nat) by (apply nth_error_Some; congruence).
    rewrite set_nth_length in L. apply nth_error_Some in L.
    destruct (nth_error l i) as [z|] eqn:Ez; [|congruence].
    rewrite (nth_set_same _ _ _ _ Ez) in E. congruence.
  - right. split; [exact Hn|]. rewrite nth_set_other in E by congruence. exact E.
Qed.

Lemma moved_ports P w w' i p t H F ph ch t' H' F' ph' ch' :
  at_port P w i p t H F ph ch -> moved w w' i t' H' F' ph' ch' ->
  forall j p2 t2 H2 F2 ph2 ch2, at_port P w' j p2 t2 H2 F2 ph2 ch2 ->
    (j = i /\ p2 = p /\ t2 = t' /\ H2 = H' /\ F2 = F' /\ ph2 = ph' /\ ch2 = ch') \/
    (j <> i /\ at_port P w j p2 t2 H2 F2 ph2 ch2).
Proof.
  intros (A1 & A2 & A3 & A4 & A5 & A6) (M1 & M2 & M3 & M4 & M5) j p2 t2 H2 F2 ph2 ch2 (B1 & B2 & B3 & B4 & B5 & B6).
  rewrite M1 in B2. rewrite M2 in B3. rewrite M3 in B4. rewrite M4 in B5. rewrite M5 in B6.
  destruct (nth_set_inv _ _ _ _ _ B2) as [[-> ->] | [Hn B2']].
  - left. rewrite (nth_set_same _ _ _ _ A3) in B3. rewrite (nth_set_same _ _ _ _ A4) in B4.
    rewrite (nth_set_same _ _ _ _ A5) in B5. rewrite (nth_set_same _ _ _ _ A6) in B6.
    rewrite A1 in B1. repeat split; congruence.
  - right. split; [exact Hn|]. rewrite nth_set_other in B3 by congruence. rewrite nth_set_other in B4 by congruence.
    rewrite nth_set_other in B5 by congruence. rewrite nth_set_other in B6 by congruence.
    repeat split; assumption.
Qed.

Lemma minv_mk P w w' i p t H F ph ch t' H' F' ph' ch' hd hd' last last' clean clean' x y :
  minv P w hd last clean -> at_port P w i p t H F ph ch -> moved w w' i t' H' F' ph' ch' ->
  rs_ckpts (w_r w') = rs_ckpts (w_r w) ++ x -> w_disk w' = w_disk w ++ y ->
  rs_abort (w_r w') = false -> rs_gone (w_r w') = gones (rs_threads (w_r w')) ->
  incl hd hd' -> (forall j, j <> i -> In j hd' -> In j hd) ->
  (forall j, j <> i -> (last' = None \/ last' = Some j) ->
     (last = None \/ last = Some j) /\ clean' j = clean j) ->
  (forall j, j <> i -> last' = Some j -> last = Some j) ->
  (forall c, In c x -> c = rt_ck t' /\ over (rt_ph t') = true) ->
  (over (rt_ph t) = true -> over (rt_ph t') = true /\ rt_ck t' = rt_ck t) ->
  pinv P (w_disk w') (rs_ckpts (w_r w')) hd' last' clean' i p t' H' F' ph' ch' ->
  oks (w_disk w') (w_s w') ->
  (forall j, clean' j = true -> sn_queue (w_s w') = [] /\ w_init w' = true) ->
  (tp_mode P <> Plain -> w_refused w' = false) ->
  minv P w' hd' last' clean'.
Proof.
  intros M A Mv EG Ed Ea Eg Ih Jh Q1 Q2 Hx Ho Pi Ok Cl Rf.
  pose proof Mv as (M1 & M2 & M3 & M4 & M5).
  constructor; try assumption.
  - rewrite M1, M2, M3, M4, M5, !set_nth_length. exact (mi_len _ _ _ _ _ M).
  - intros c Hc. rewrite EG in Hc. apply in_app_or in Hc as [Hc|Hc].
    + destruct (mi_G _ _ _ _ _ M c Hc) as (k & u & E1 & E2 & E3). rewrite M1.
      destruct (Nat.eq_dec k i) as [-> | Hn].
      * exists i, t'. destruct A as (_ & A2 & _). rewrite A2 in E1. injection E1 as <-.
        destruct (Ho E2) as [O1 O2]. rewrite (nth_set_same _ _ _ _ A2). repeat split; [exact O1|congruence].
      * exists k, u. rewrite nth_set_other by congruence. auto.
    + destruct (Hx c Hc) as [O1 O2]. exists i, t'. destruct A as (_ & A2 & _).
      rewrite M1, (nth_set_same _ _ _ _ A2). auto.
  - intros j p2 t2 H2 F2 ph2 ch2 B. destruct (moved_ports _ _ _ _ _ _ _ _ _ _ _ _ _ _ _ A Mv _ _ _ _ _ _ _ B)
      as [(-> & -> & -> & -> & -> & -> & ->) | (Hn & B')]; [exact Pi|].
    pose proof (mi_ports _ _ _ _ _ M _ _ _ _ _ _ _ B') as X.
    rewrite EG, Ed. apply pinv_disk, pinv_G.
    eapply pinv_q; [|eapply pinv_hd; [exact Ih|apply Jh, Hn|exact X]|].
    + intros L. destruct (Q1 j Hn L) as [L1 L2]. split; [exact L1|congruence].
    + intros L Ef Hi. apply (Jh j Hn) in Hi. refine (pi_lastq _ _ _ _ _ _ _ _ _ _ _ _ _ X (Q2 j Hn L) _ Hi).
      destruct (Q1 j Hn (or_intror L)) as [_ <-]. exact Ef.
  - intros j L. destruct (Nat.eq_dec j i) as [-> | Hn].
    + destruct A as (A1 & _). apply nth_error_Some; congruence.
    + exact (mi_last _ _ _ _ _ M j (Q2 j Hn L)).
Qed.

(** The receiver does not move. *)
Lemma minv_send P w w' i p t H F ph ch H' F' ph' ch' hd last last' clean clean' :
  minv P w hd last clean -> at_port P w i p t H F ph ch -> moved w w' i t H' F' ph' ch' ->
  w_r w' = w_r w -> w_disk w' = w_disk w ->
  (forall j, j <> i -> (last' = None \/ last' = Some j) ->
     (last = None \/ last = Some j) /\ clean' j = clean j) ->
  (forall j, j <> i -> last' = Some j -> last = Some j) ->
  pinv P (w_disk w) (rs_ckpts (w_r w)) hd last' clean' i p t H' F' ph' ch' ->
  oks (w_disk w) (w_s w') ->
  (forall j, clean' j = true -> sn_queue (w_s w') = [] /\ w_init w' = true) ->
  (tp_mode P <> Plain -> w_refused w' = false) ->
  minv P w' hd last' clean'.
Proof.
  intros M A Mv ER ED Q1 Q2 Pi Ok Cl Rf.
  eapply (minv_mk P w w' i p t H F ph ch t H' F' ph' ch' hd hd last last' clean clean' [] []); try eassumption.
  - rewrite ER, app_nil_r; reflexivity.
  - rewrite ED, app_nil_r; reflexivity.
  - rewrite ER; exact (mi_abort _ _ _ _ _ M).
  - rewrite ER; exact (mi_gone _ _ _ _ _ M).
  - apply incl_refl.
  - auto.
  - intros c [].
  - auto.
  - rewrite ER, ED; exact Pi.
  - rewrite ED; exact Ok.
Qed.

Lemma moved_send w w' i t H F ph ch :
  nth_error (rs_threads (w_r w)) i = Some t -> w_r w' = w_r w ->
  sn_hist (w_s w') = set_nth (sn_hist (w_s w)) i H ->
  sn_flight (w_s w') = set_nth (sn_flight (w_s w)) i F ->
  w_sph w' = set_nth (w_sph w) i ph -> w_chan w' = set_nth (w_chan w) i ch ->
  moved w w' i t H F ph ch.
Proof.
  intros E ER E1 E2 E3 E4. split; [rewrite ER; symmetry; apply set_nth_id, E|]. auto.
Qed.

(** ** What the steps do to the blocks *)

Definition credit_ok (d : list piece) (c : checkpoint) (h : hsrc) : Prop :=
  forall x, s_offset (h_src h) <= x < s_offset (h_src h) + credit (Some c) h -> holds d (s_seqId (h_src h)) x.

Lemma mark_okb d h c ts h' ts' : okb d h ->
  match c with Some k => credit_ok d k h | None => True end ->
  markSourceAsFailed h c ts = (h', ts') -> okb d h'.
Proof.
  intros [A B] C E. destruct (mark_spec _ _ _ _ _ E) as ((_ & S2 & _ & _ & _ & S6 & S7) & So & Sn & _).
  unfold okb. rewrite S2, S6, S7, So, Sn. split; [lia|].
  intros x Hx. destruct (Z_lt_ge_dec x (s_offset (h_src h))) as [L|L]; [apply B; lia|].
  destruct c as [k|]; [apply C; unfold credit in *; lia|]. cbn [credit] in Hx. lia.
Qed.

Lemma fail_all_okb d l c : forall ts ret ts', Forall (okb d) l -> Forall (credit_ok d c) l ->
  fail_all l c ts = (ret, ts') -> Forall (okb d) ret.
Proof.
  induction l as [|h l IH]; intros ts ret ts' Ho Hc E; cbn [fail_all] in E.
  { injection E as <- <-; constructor. }
  destruct (markSourceAsFailed h _ ts) as [h' ts1] eqn:Em.
  destruct (fail_all l c ts1) as [l' ts2] eqn:Ef. injection E as <- <-.
  inversion Ho; inversion Hc; subst. constructor; [|eapply IH; eassumption].
  eapply mark_okb; [eassumption| |exact Em]. destruct l; [assumption|exact I].
Qed.

Lemma Forall_in_nth {A} (Q : A -> Prop) l i x : Forall Q l -> nth_error l i = Some x -> Q x.
Proof. intros HF E. rewrite Forall_forall in HF. eapply HF, nth_error_In, E. Qed.

(** A checkpoint that was taken. *)
Lemma apply_ckpt_inv d s i fl hi ts c g s' :
  oks d s -> nth_error (sn_flight s) i = Some fl -> nth_error (sn_hist s) i = Some hi ->
  nth_error (sn_stats s) i = Some ts ->
  Forall (credit_ok d c) (skipn (Z.to_nat (ck_numBlocks c)) (hi_list hi)) ->
  apply_ckpt s i fl (setCheckpoint hi ts c g) = Some (Ret s') ->
  exists hi', sn_hist s' = set_nth (sn_hist s) i hi' /\ sn_flight s' = set_nth (sn_flight s) i fl /\
    oks d s' /\ sn_failed s' = sn_failed s /\
    if refuses s i c g
    then hi' = hi /\ sn_queue s' = sn_queue s
    else (Z.to_nat (ck_numBlocks c) <= length (hi_list hi))%nat /\ 0 <= ck_numBlocks c /\
         hi_list hi' = firstn (Z.to_nat (ck_numBlocks c)) (hi_list hi) /\ hi_last hi' = Some c /\
         (hi_global hi' = true -> hi_global hi = true \/ g = true).
Proof.
  intros (O1 & O2 & O3 & O4) E1 E2 E3 C.
  unfold refuses. rewrite E2, E3.
  destruct (setCheckpoint hi ts c g) as [[[[e hi'] ts'] ret]| |] eqn:Es; cbn [apply_ckpt]; try discriminate.
  intros E; injection E as <-. unfold upd_thread; cbn [sn_hist sn_flight sn_queue sn_failed].
  exists hi'. split; [reflexivity|]. split; [reflexivity|].
  assert (Oh : Forall (okb d) (hi_list hi)) by (exact (Forall_in_nth _ _ _ _ O3 E2)).
  destruct (setCheckpoint_inv _ _ _ _ _ _ _ _ Es) as [(-> & -> & -> & ->)|(Hne & Hn & _ & Hf & ->)].
  - split; [|split; [reflexivity|]].
    + unfold oks; cbn. split; [rewrite app_nil_r; exact O1|]. split; [|split; [|exact O4]].
      * intros h Hh. apply in_set_nth in Hh as [Eh|Hh]; [subst fl; apply O2; apply nth_error_In in E1; exact E1|auto].
      * apply Forall_set; assumption.
    + cbn. rewrite app_nil_r; auto.
  - split; [|split; [reflexivity|]].
    + unfold oks; cbn. split; [|split; [|split; [|exact O4]]].
      * apply Forall_app. split; [exact O1|]. eapply fail_all_okb; [| |exact Hf]; apply Forall_rev;
          [apply Forall_skipn', Oh|exact C].
      * intros h Hh. apply in_set_nth in Hh as [Eh|Hh]; [subst fl; apply O2; apply nth_error_In in E1; exact E1|auto].
      * apply Forall_set; [assumption|]. cbn. apply Forall_firstn', Oh.
    + apply Z.eqb_neq in Hne. rewrite Hne. unfold zlen in Hn. cbn. split; [lia|]. split; [lia|].
      split; [reflexivity|]. split; [reflexivity|]. intros X. apply Bool.orb_prop in X; tauto.
Qed.

(** ** The sender's steps, one port *)

Lemma dial_inv P d G hd last clean j p t H F f ch :
  pinv P d G hd last clean j p t H F (SConnect f) ch ->
  pinv P d G hd last clean j p t H F (SConnect f) (dial ch).
Proof.
  intros []. constructor; try assumption; try (intros; discriminate).
  - intros c Hc. cbn in Hc. apply in_app_or in Hc as [Hc|[<-|[]]]; [auto|reflexivity].
  - intros Ho. destruct (pi_backlog Ho) as [A|(A & B & l1 & c & l2 & E & C & D)].
    + left. intros c Hc. cbn in Hc. apply in_app_or in Hc as [Hc|[<-|[]]]; [auto|reflexivity].
    + right. split; [exact A|]. split; [exact B|]. exists l1, c, (l2 ++ [conn_new]).
      cbn. rewrite E. split; [rewrite <- app_assoc; reflexivity|]. split; [|exact D].
      intros x Hx. rewrite app_assoc in Hx. apply in_app_or in Hx as [Hx|[<-|[]]]; [auto|reflexivity].
  - intros E. destruct (pi_first E) as (A1 & A2 & A3 & A4 & A5). ands. split; [|exact A5].
    intros c Hc. cbn in Hc. apply in_app_or in Hc as [Hc|[<-|[]]]; [auto|reflexivity].
  - intros Hh. destruct (pi_wait Hh) as (A1 & A2 & A3 & A4 & A5 & A6 & A7). ands. intros; discriminate.
  - intros Hc. destruct (pi_told Hc) as [A|(A & B & _)]; [auto|right]. split; [exact A|]. split; [exact B|]. intros; discriminate.
  - intros L [K|[(c & Hc & K)|K]]; [auto| |auto]. cbn in Hc. apply in_app_or in Hc as [Hc|[<-|[]]]; [eauto 6|contradiction].
Qed.

Lemma connect_inv P d G hd last clean j p t H F f ch :
  pinv P d G hd last clean j p t H F (SConnect f) ch ->
  pinv P d G hd last clean j p t H F (if f then SSend else SReadLocal) (dial ch).
Proof.
  intros X. pose proof (dial_inv _ _ _ _ _ _ _ _ _ _ _ _ _ X) as Y.
  assert (Fn : F = None) by (apply (pi_fl _ _ _ _ _ _ _ _ _ _ _ _ _ X); discriminate).
  assert (Gl : hi_global H = false).
  { destruct (hi_global H) eqn:E; [|reflexivity]. pose proof (pi_hglob _ _ _ _ _ _ _ _ _ _ _ _ _ X E); discriminate. }
  assert (Hd : ~ In j hd).
  { intros E. destruct (pi_hd _ _ _ _ _ _ _ _ _ _ _ _ _ X E); discriminate. }
  assert (Cu : cur_up (dial ch) = []) by (erewrite cur_up_last by reflexivity; reflexivity).
  assert (Ne : ch_new (dial ch) <> []) by (cbn; destruct (ch_new ch); discriminate).
  destruct f.
  - pose proof (pi_first _ _ _ _ _ _ _ _ _ _ _ _ _ X eq_refl) as (A1 & A2 & A3 & A4 & A5).
    destruct Y. constructor; try assumption; try (intros; discriminate); try (split; discriminate).
    + intros E. congruence.
    + intros E. congruence.
    + intros E. contradiction.
    + intros _. split; [intros E; contradiction|]. intros l1 c E Ho.
      cbn in E. apply app_inj_tail in E as [<- <-].
      split; [exact A4|]. split; [exact A2|]. split; [exact A3|]. split.
      * apply Bool.not_true_is_false; intros Eh.
        destruct (pi_wait Eh) as (_ & _ & _ & _ & _ & K & _). congruence.
      * rewrite A1; reflexivity.
    + intros _. rewrite Cu. intros [].
    + intros Hh. destruct (pi_wait Hh) as (_ & _ & _ & _ & _ & K & _). congruence.
    + intros _ E. contradiction.
    + intros Hc. left. apply A5, Hc.
    + destruct pi_from as [B _]. split; [exact B|]. intros; discriminate.
  - destruct Y. constructor; try assumption; try (intros; discriminate); try (split; discriminate).
    + intros _. exact Fn.
    + intros E; congruence.
    + intros E; contradiction.
    + intros _. split; [exact Cu|]. intros E; contradiction.
    + intros Hh. destruct (pi_wait Hh) as (B1 & B2 & B3 & B4 & B5 & B6 & B7).
      repeat (split; [first [assumption | discriminate]|]). intros; discriminate.
    + intros Hc. destruct (pi_told Hc) as [A|(A & B & _)]; [auto|right]. split; [exact A|]. split; [exact B|]. intros; discriminate.
    + destruct pi_from as [B _]. split; [exact B|]. intros; discriminate.
Qed.

Lemma quit_inv P d G hd last clean j p t H F ph ph' ch :
  pinv P d G hd last clean j p t H F ph ch -> F = None -> ph <> SErr ->
  ph' = SConnect false \/ ph' = SErr ->
  pinv P d G hd last clean j p t H F ph' ch.
Proof.
  intros X Fn Ne Hp.
  assert (Gl : hi_global H = false).
  { destruct (hi_global H) eqn:E; [|reflexivity]. pose proof (pi_hglob _ _ _ _ _ _ _ _ _ _ _ _ _ X E); congruence. }
  assert (Hd : ~ In j hd).
  { intros E. destruct (pi_hd _ _ _ _ _ _ _ _ _ _ _ _ _ X E); congruence. }
  assert (K1 : active ph' = false) by (destruct Hp; subst; reflexivity).
  assert (K2 : ph' <> SSend /\ ph' <> SReadCmd /\ ph' <> SReadLocal /\ ph' <> SConnect true /\
               (forall cs, ph' <> SGlobal cs) /\ ph' <> SDone /\ ph' <> SOk)
    by (destruct Hp; subst; repeat split; discriminate).
  destruct K2 as (N1 & N2 & N3 & N4 & N5 & N6 & N7).
  destruct X. constructor; try assumption; try (intros; congruence); try (split; congruence);
    try (intros; contradiction).
  - intros Hh. destruct (pi_wait Hh) as (B1 & B2 & B3 & B4 & B5 & B6 & B7).
    ands. intros; congruence.
  - intros Hc. destruct (pi_told Hc) as [A|(A & B & _)]; [auto|right]. split; [exact A|]. split; [exact B|]. intros; congruence.
  - destruct pi_from as [B _]. split; [exact B|]. intros rest c E. exfalso; exact (N5 _ E).
Qed.

Lemma fits_F up n l F F' : ~ In UDone up -> fits up n l F -> fits up n l F'.
Proof. intros N (A & B & _). split; [exact A|]. split; [exact B|]. intros K; contradiction. Qed.

(** While sending, no DONE is on its way. *)
Lemma send_nodone P d G hd last clean j p t H F ch :
  pinv P d G hd last clean j p t H F SSend ch -> over (rt_ph t) = false ->
  ~ In UDone (rup ch) /\ forall c, In c (ch_new ch) -> ~ In UDone (cn_up c).
Proof.
  intros [] Ho. specialize (pi_cur eq_refl). specialize (pi_nodone eq_refl).
  destruct pi_cur as [C1 C2]. destruct (last_cases (ch_new ch)) as [E|(l1 & c & E)].
  - rewrite (cur_up_none _ E) in pi_nodone. split; [exact pi_nodone|]. rewrite E. intros c [].
  - rewrite (cur_up_last _ _ _ E) in pi_nodone. destruct (C2 _ _ E Ho) as (A & B & _).
    rewrite B. split; [intros []|]. intros x Hx. rewrite E in Hx. apply in_app_or in Hx as [Hx|[<-|[]]].
    + rewrite (A x Hx). intros [].
    + exact pi_nodone.
Qed.

Lemma take_inv P d G hd last clean j p t H F' ch :
  pinv P d G hd last clean j p t H None SSend ch ->
  pinv P d G hd last clean j p t H F' SSend ch.
Proof.
  intros X. pose proof (send_nodone _ _ _ _ _ _ _ _ _ _ _ _ X) as Nd.
  destruct X. constructor; try assumption; try (intros; congruence).
  - intros Ho. destruct (Nd Ho) as [N1 N2]. destruct (pi_backlog Ho) as [A|(A & B & l1 & c & l2 & E & C & D)]; [auto|right].
    split; [exact A|]. split; [exact B|]. exists l1, c, l2. split; [exact E|]. split; [exact C|].
    eapply fits_F; [|exact D]. apply N2. rewrite E. apply in_or_app; right; left; reflexivity.
  - intros Hc. destruct (Nd (connected_over _ Hc)) as [N1 N2]. destruct (pi_r Hc) as (A & B & C).
    split; [exact A|]. split; [exact B|]. eapply fits_F; [exact N1|exact C].
  - intros Hh. destruct (pi_wait Hh) as (_ & _ & _ & K & _). congruence.
Qed.

Lemma fits_snoc up n l h m : fits up n l (Some h) -> ukeys up = skipn n (map keyof l) ->
  (n <= length l)%nat -> ~ In UDone up -> ukey m = [keyof h] -> forall h', keyof h' = keyof h ->
  fits (up ++ [m]) n (l ++ [h']) None.
Proof.
  intros (A & B & C) E L N K h' Kh.
  assert (Nd : ~ In UDone (up ++ [m])).
  { intros I. apply in_app_or in I as [I|[I|[]]]; [contradiction|]. subst m; discriminate. }
  split; [|split].
  - rewrite ukeys_app, E, map_app, skipn_app_le by (rewrite map_length; exact L).
    cbn [ukeys flat_map map]. rewrite K, Kh, app_nil_r. apply prefix_refl.
  - apply nodone_form, Nd.
  - intros I; contradiction.
Qed.

Lemma fits_grow up n l h h' F' : fits up n l (Some h) -> (n <= length l)%nat -> ~ In UDone up ->
  fits up n (l ++ [h']) F'.
Proof.
  intros (A & B & C) L N. split; [|split; [exact B|intros; contradiction]].
  rewrite map_app, skipn_app_le by (rewrite map_length; exact L). apply prefix_app, A.
Qed.

Lemma sent_inv P d G hd last clean j p t H H' h h' ch m :
  pinv P d G hd last clean j p t H (Some h) SSend ch ->
  hi_list H' = hi_list H ++ [h'] -> hi_global H' = hi_global H -> hi_last H' = hi_last H ->
  keyof h' = keyof h -> ukey m = [keyof h] ->
  pinv P d G hd last clean j p t H' None SSend (put_up ch m).
Proof.
  intros X EL EG ELa Kh Km.
  pose proof (send_nodone _ _ _ _ _ _ _ _ _ _ _ _ X) as Nd.
  assert (Md : m <> UDone) by (intros ->; discriminate).
  destruct X.
  assert (Gl : hi_global H = false) by (apply Bool.not_true_is_false; intros E; specialize (pi_hglob E); discriminate).
  assert (Hd : ~ In j hd) by (intros E; destruct (pi_hd E); discriminate).
  assert (Hw : held (rt_ph t) = false).
  { apply Bool.not_true_is_false; intros E. destruct (pi_wait E) as (_ & _ & _ & K & _). congruence. }
  assert (Wp : waitp (rt_ph t) = false) by (destruct (rt_ph t); cbn in *; congruence).
  specialize (pi_cur eq_refl) as [C1 C2]. specialize (pi_nodone eq_refl).
  assert (Ln : length (hi_list H') = S (length (hi_list H))) by (rewrite EL, app_length; cbn; lia).
  assert (Told : connected (rt_ph t) = true -> forall c, In c (firstn (rt_pend t) G) -> handled P hd c).
  { intros Hc. destruct (pi_told Hc) as [A|(_ & _ & K)]; [exact A|].
    destruct (K eq_refl) as [[r E]|[E _]]; discriminate. }
  destruct (last_cases (ch_new ch)) as [E|(l1 & c & E)].
  - destruct (C1 E) as [Cr Ck]. destruct (ch_r ch) as [c|] eqn:Ec; [|congruence].
    assert (Ru : rup ch = cn_up c) by (unfold rup; rewrite Ec; reflexivity).
    assert (Rd : rdown ch = cn_down c) by (unfold rdown; rewrite Ec; reflexivity).
    rewrite (cur_up_none _ E), Ru in pi_nodone.
    rewrite (put_up_none _ _ E _ Ec).
    constructor; cbn [ch_r ch_new rup rdown send_up cn_up cn_down]; try assumption; try (intros; congruence); try (intros; contradiction).
    + rewrite Ln; lia.
    + rewrite EL, firstn_app_le by exact pi_len. exact pi_wr.
    + intros Hf. destruct (pi_fresh Hf) as (K & _). congruence.
    + rewrite ELa; exact pi_last.
    + intros _. left. intros x [].
    + intros Hc. destruct (pi_r Hc) as (A & B & D). rewrite Ru in D. specialize (Ck Hc). rewrite Ru in Ck.
      rewrite Ln. split; [lia|]. split; [rewrite EL, firstn_app_le by exact A; exact B|].
      rewrite EL. eapply fits_snoc; try eassumption.
    + intros _. split; [|intros l1 x K; destruct l1; discriminate]. intros _. split; [congruence|].
      intros Hc. destruct (pi_r Hc) as (A & _). specialize (Ck Hc). rewrite Ru in Ck.
      rewrite ukeys_app, Ck, EL, map_app, skipn_app_le by (rewrite map_length; exact A).
      cbn [ukeys flat_map map]. rewrite Km, Kh, app_nil_r. reflexivity.
    + intros _. cbn. intros I. apply in_app_or in I as [I|[I|[]]]; [contradiction|congruence].
    + intros Ha _ cs I. destruct (pi_err eq_refl E cs) as (K & _); [rewrite Rd; exact I|discriminate].
    + intros Hc. left. exact (Told Hc).
    + destruct pi_from as [B _]. split; [|intros; discriminate]. rewrite Rd in B. exact B.
    + intros La [I|[(x & [] & _)|I]]; [|congruence]. apply in_app_or in I as [I|[I|[]]]; [contradiction|congruence].
  - rewrite (put_up_last _ _ _ _ E). rewrite (cur_up_last _ _ _ E) in pi_nodone.
    constructor; cbn [ch_r ch_new rup rdown send_up cn_up cn_down]; try assumption; try (intros; congruence); try (intros; contradiction).
    + rewrite Ln; lia.
    + rewrite EL, firstn_app_le by exact pi_len. exact pi_wr.
    + rewrite ELa; exact pi_last.
    + intros x Hx. apply in_app_or in Hx as [Hx|[<-|[]]].
      * apply pi_newdown. rewrite E. apply in_or_app; auto.
      * cbn. apply pi_newdown. rewrite E. apply in_or_app; right; left; reflexivity.
    + intros Ho. destruct (C2 _ _ E Ho) as (A1 & A2 & A3 & A4 & A5). right.
      split; [exact A3|]. split; [exact A2|]. exists l1, (send_up c m), []. split; [reflexivity|].
      split; [intros x Hx; rewrite app_nil_r in Hx; auto|]. cbn [cn_up send_up]. rewrite EL.
      eapply fits_snoc; try eassumption; [|lia].
      split; [cbn [skipn]; rewrite A5; apply prefix_refl|]. split; [apply nodone_form; exact pi_nodone|].
      intros K; contradiction.
    + intros Hc. destruct (C2 _ _ E (connected_over _ Hc)) as (A1 & A2 & A3 & A4 & A5).
      destruct (pi_r Hc) as (A & B & D). rewrite Ln. split; [lia|].
      split; [rewrite EL, firstn_app_le by exact A; exact B|].
      unfold rup in A2 |- *; cbn. rewrite A2. apply fits_nil.
    + intros _. split; [intros K; destruct l1; discriminate|]. intros l1' c' E' Ho.
      apply app_inj_tail in E' as [<- <-]. destruct (C2 _ _ E Ho) as (A1 & A2 & A3 & A4 & A5).
      split; [exact A1|]. split; [exact A2|]. split; [exact A3|]. split; [exact A4|].
      cbn. rewrite ukeys_app, A5, EL, map_app. cbn [ukeys flat_map map]. rewrite Km, Kh, app_nil_r. reflexivity.
    + intros _. erewrite cur_up_last by reflexivity. cbn.
      intros I. apply in_app_or in I as [I|[I|[]]]; [contradiction|congruence].
    + intros _ K; destruct l1; discriminate.
    + intros Hc. left. exact (Told Hc).
    + intros La [I|[(x & Hx & I)|I]]; [|apply in_app_or in Hx as [Hx|[<-|[]]]|].
      * apply pi_q; auto.
      * apply pi_q; [exact La|]. right; left. exists x. split; [rewrite E; apply in_or_app; auto|exact I].
      * cbn in I. apply in_app_or in I as [I|[I|[]]]; [contradiction|congruence].
      * congruence.
Qed.

Lemma in_done_form up : ~ In UDone up -> forall l1 l2, up ++ [UDone] = l1 ++ UDone :: l2 -> l2 = [].
Proof.
  intros N l1 l2 E. destruct (last_cases l2) as [->|(l3 & x & ->)]; [reflexivity|]. exfalso. apply N.
  replace (l1 ++ UDone :: l3 ++ [x]) with ((l1 ++ UDone :: l3) ++ [x]) in E by (rewrite <- app_assoc; reflexivity).
  apply app_inj_tail in E as [-> _]. apply in_or_app; right; left; reflexivity.
Qed.

Lemma fits_done up n l : ukeys up = skipn n (map keyof l) -> ~ In UDone up -> fits (up ++ [UDone]) n l None.
Proof.
  intros E N. assert (U : ukeys (up ++ [UDone]) = skipn n (map keyof l)).
  { rewrite ukeys_app. cbn [ukeys flat_map ukey]. rewrite app_nil_r. exact E. }
  split; [rewrite U; apply prefix_refl|]. split; [apply in_done_form, N|]. auto.
Qed.

Lemma done_inv P d G hd last clean clean' j p t H ch :
  pinv P d G hd last clean j p t H None SSend ch -> clean' j = true ->
  pinv P d G hd last clean' j p t H None SReadCmd (put_up ch UDone).
Proof.
  intros X Cl.
  pose proof (send_nodone _ _ _ _ _ _ _ _ _ _ _ _ X) as Nd.
  destruct X.
  assert (Gl : hi_global H = false) by (apply Bool.not_true_is_false; intros E; specialize (pi_hglob E); discriminate).
  assert (Hd : ~ In j hd) by (intros E; destruct (pi_hd E); discriminate).
  assert (Hw : held (rt_ph t) = false).
  { apply Bool.not_true_is_false; intros E. destruct (pi_wait E) as (_ & _ & _ & K & _). congruence. }
  specialize (pi_cur eq_refl) as [C1 C2]. specialize (pi_nodone eq_refl).
  assert (Told : connected (rt_ph t) = true -> forall c, In c (firstn (rt_pend t) G) -> handled P hd c).
  { intros Hc. destruct (pi_told Hc) as [A|(_ & _ & K)]; [exact A|].
    destruct (K eq_refl) as [[r E]|[E _]]; discriminate. }
  destruct (last_cases (ch_new ch)) as [E|(l1 & c & E)].
  - destruct (C1 E) as [Cr Ck]. destruct (ch_r ch) as [c|] eqn:Ec; [|congruence].
    assert (Ru : rup ch = cn_up c) by (unfold rup; rewrite Ec; reflexivity).
    assert (Rd : rdown ch = cn_down c) by (unfold rdown; rewrite Ec; reflexivity).
    rewrite (cur_up_none _ E), Ru in pi_nodone.
    rewrite (put_up_none _ _ E _ Ec).
    constructor; cbn [ch_r ch_new rup rdown send_up cn_up cn_down]; try assumption; try (intros; congruence);
      try (intros; contradiction); try (split; congruence).
    + intros Hf. destruct (pi_fresh Hf) as (K & _). congruence.
    + intros _. left. intros x [].
    + intros Hc. destruct (pi_r Hc) as (A & B & D). specialize (Ck Hc). rewrite Ru in Ck.
      split; [exact A|]. split; [exact B|]. apply fits_done; assumption.
    + intros _. split; [|intros l1 x K; destruct l1; discriminate]. intros _. split; [congruence|].
      intros Hc. specialize (Ck Hc). rewrite Ru in Ck. rewrite ukeys_app. cbn [ukeys flat_map ukey].
      rewrite app_nil_r. exact Ck.
    + intros Ha _ cs I. destruct (pi_err eq_refl E cs) as (K & _); [rewrite Rd; exact I|discriminate].
    + intros Hc. left. exact (Told Hc).
    + destruct pi_from as [B _]. split; [|intros; discriminate]. rewrite Rd in B. exact B.
  - rewrite (put_up_last _ _ _ _ E). rewrite (cur_up_last _ _ _ E) in pi_nodone.
    constructor; cbn [ch_r ch_new rup rdown send_up cn_up cn_down]; try assumption; try (intros; congruence);
      try (intros; contradiction); try (split; congruence).
    + intros x Hx. apply in_app_or in Hx as [Hx|[<-|[]]].
      * apply pi_newdown. rewrite E. apply in_or_app; auto.
      * cbn. apply pi_newdown. rewrite E. apply in_or_app; right; left; reflexivity.
    + intros Ho. destruct (C2 _ _ E Ho) as (A1 & A2 & A3 & A4 & A5). right.
      split; [exact A3|]. split; [exact A2|]. exists l1, (send_up c UDone), []. split; [reflexivity|].
      split; [intros x Hx; rewrite app_nil_r in Hx; auto|]. cbn [cn_up send_up].
      apply fits_done; [cbn [skipn]; exact A5|assumption].
    + intros _. split; [intros K; destruct l1; discriminate|]. intros l1' c' E' Ho.
      apply app_inj_tail in E' as [<- <-]. destruct (C2 _ _ E Ho) as (A1 & A2 & A3 & A4 & A5).
      split; [exact A1|]. split; [exact A2|]. split; [exact A3|]. split; [exact A4|].
      cbn. rewrite ukeys_app. cbn [ukeys flat_map ukey]. rewrite app_nil_r. exact A5.
    + intros _ K; destruct l1; discriminate.
    + intros Hc. left. exact (Told Hc).
    + destruct pi_from as [B _]. split; [exact B|intros; discriminate].
Qed.

(** Only messages to the sender are taken off. *)
Definition drained (ch ch' : chan) (r : list downmsg) : Prop :=
  rup ch' = rup ch /\ rdown ch' = r /\ ch_new ch' = ch_new ch /\ ch_r ch' <> None.

Lemma take_down_drained ch m ch' : take_down ch = Some (m, ch') ->
  ch_new ch = [] /\ ch_r ch <> None /\ exists r, rdown ch = m :: r /\ drained ch ch' r.
Proof.
  intros E. destruct (take_down_inv _ _ _ E) as (En & c & r & Ec & Ed & ->).
  split; [exact En|]. split; [congruence|]. exists r. unfold drained, rup, rdown; cbn. rewrite Ec, En.
  repeat split; try assumption; congruence.
Qed.

Lemma cur_up_drained ch ch' r : drained ch ch' r -> cur_up ch' = cur_up ch.
Proof. intros (A & _ & B & _). unfold cur_up. rewrite B, A. reflexivity. Qed.

(** Reading something other than ERR while waiting for the receiver's command;
    markAllAcknowledged. *)
Lemma read_cmd_inv P d G hd last clean j p t H H' ch ch' m r :
  pinv P d G hd last clean j p t H None SReadCmd ch ->
  ch_new ch = [] -> rdown ch = m :: r -> drained ch ch' r -> (forall cs, m <> DErr cs) ->
  hi_list H' = hi_list H -> hi_global H' = hi_global H -> hi_last H' = hi_last H ->
  pinv P d G hd last clean j p t H' None SReadCmd ch'.
Proof.
  intros X En Ed Dr Nm E1 E2 E3. pose proof (cur_up_drained _ _ _ Dr) as Cu.
  destruct Dr as (Dr1 & Dr2 & Dr3 & Dr4). destruct X.
  assert (Sub : forall x, In x r -> In x (rdown ch)) by (intros x Hx; rewrite Ed; right; exact Hx).
  constructor; rewrite ?E1, ?E2, ?E3, ?Dr1, ?Dr2, ?Dr3, ?Cu; try assumption; try (intros; discriminate).
  - intros Hf. destruct (pi_fresh Hf) as (K & _). unfold rdown in Ed; rewrite K in Ed; discriminate.
  - intros K. apply pi_done, Sub, K.
  - intros _. split; [intros _|].
    + split; [exact Dr4|]. apply pi_cur; [reflexivity|assumption].
    + apply pi_cur; reflexivity.
  - intros Hh. destruct (pi_wait Hh) as (B1 & B2 & B3 & B4 & B5 & B6 & B7).
    ands. intros _. destruct (B7 eq_refl) as [K1 K2].
    split; [exact K1|]. intros cs I. apply (K2 cs), Sub, I.
  - intros Ha _ cs I. destruct (pi_err Ha En cs (Sub _ I)) as (A & B & (l & D1 & D2) & K).
    ands. split; [|exact K].
    rewrite Ed in D1. destruct l as [|x l].
    + cbn in D1. injection D1 as D1 D3. exfalso; exact (Nm _ D1).
    + cbn in D1. injection D1 as <- ->. exists l. split; [reflexivity|]. intros cs' I'. apply (D2 cs'). right; exact I'.
  - intros Hc. destruct (pi_told Hc) as [A|(A & B & C)]; [auto|right]. split; [exact A|]. split; [exact B|].
    intros Ha. destruct (C Ha) as [[x K]|(K1 & K2 & cs & K3)]; [discriminate|]. right. split; [exact K1|]. split; [exact K2|].
    exists cs. rewrite Ed in K3. destruct K3 as [K3|K3]; [exfalso; exact (Nm _ K3)|exact K3].
  - destruct pi_from as [B1 B2]. split; [|exact B2]. intros cs c I. apply B1, Sub, I.
Qed.

(** Reading ERR. *)
Lemma read_err_inv P d G hd last clean j p t H H' ch ch' cs r :
  pinv P d G hd last clean j p t H None SReadCmd ch ->
  ch_new ch = [] -> rdown ch = DErr cs :: r -> drained ch ch' r ->
  hi_list H' = hi_list H -> hi_global H' = hi_global H -> hi_last H' = hi_last H ->
  pinv P d G hd last clean j p t H' None (after_global cs) ch'.
Proof.
  intros X En Ed Dr E1 E2 E3. pose proof (cur_up_drained _ _ _ Dr) as Cu.
  destruct Dr as (Dr1 & Dr2 & Dr3 & Dr4). destruct X.
  assert (Sub : forall x, In x r -> In x (rdown ch)) by (intros x Hx; rewrite Ed; right; exact Hx).
  assert (Gl : hi_global H = false) by (apply Bool.not_true_is_false; intros E; specialize (pi_hglob E); discriminate).
  assert (Hd : ~ In j hd) by (intros E; destruct (pi_hd E); discriminate).
  assert (I0 : In (DErr cs) (rdown ch)) by (rewrite Ed; left; reflexivity).
  assert (Er : rup ch = [] /\ r = [] /\ (connected (rt_ph t) = true -> reading (rt_ph t) = true /\
                forall c, In c (firstn (rt_pend t) G) -> handled P hd c \/ In (wire P c) cs)).
  { destruct (pi_err eq_refl En cs I0) as (A & B & (l & D1 & D2) & K).
    ands. split; [|exact K].
    rewrite Ed in D1. destruct l as [|x l]; [injection D1 as D3; exact D3|].
    injection D1 as D1 D3. exfalso. apply (D2 cs). left; congruence. }
  assert (Ne : held (rt_ph t) = false).
  { apply Bool.not_true_is_false; intros E. destruct (pi_wait E) as (_ & _ & _ & _ & _ & _ & K).
    destruct (K eq_refl) as [_ K2]. exact (K2 _ I0). }
  assert (Ag : active (after_global cs) = true) by (destruct cs; reflexivity).
  constructor; rewrite ?E1, ?E2, ?E3, ?Dr1, ?Dr2, ?Dr3, ?Cu; try assumption; try (intros; congruence);
    try (intros; contradiction).
  - intros Hf. destruct (pi_fresh Hf) as (K & _). unfold rdown in Ed; rewrite K in Ed; discriminate.
  - destruct cs; split; discriminate.
  - intros K. apply pi_done, Sub, K.
  - intros _. split; [intros _|].
    + split; [exact Dr4|]. apply pi_cur; [reflexivity|assumption].
    + apply pi_cur; reflexivity.
  - intros _. rewrite (cur_up_none _ En). rewrite (proj1 Er). intros [].
  - destruct cs; intros; discriminate.
  - destruct cs; intros; discriminate.
  - intros _ _ cs' I. destruct Er as (_ & K & _). rewrite K in I; destruct I.
  - intros rest E. assert (rest = cs) by (destruct cs; [discriminate|injection E as <-; reflexivity]). subst rest.
    destruct Er as (A1 & -> & A3). ands. split; [|exact A3]. intros cs' [].
  - intros Hc. destruct Er as (A1 & -> & A3). destruct (A3 Hc) as [A2 A4]. destruct cs as [|c cs]; [|right].
    + left. intros x Hx. destruct (A4 x Hx) as [K|[]]; exact K.
    + split; [exact A1|]. split; [exact A2|]. intros _. left. eexists; reflexivity.
  - destruct pi_from as [B1 B2]. split; [intros cs' c I; apply B1, Sub, I|].
    intros rest c E I. assert (rest = cs) by (destruct cs; [discriminate|injection E as <-; reflexivity]). subst rest.
    eapply B1; eassumption.
Qed.

Lemma drain_local P d G hd last clean j p t H F ch ch' m r :
  pinv P d G hd last clean j p t H F SReadLocal ch ->
  ch_new ch = [] -> rdown ch = m :: r -> drained ch ch' r ->
  pinv P d G hd last clean j p t H F SReadLocal ch'.
Proof.
  intros X En Ed Dr. pose proof (cur_up_drained _ _ _ Dr) as Cu.
  destruct Dr as (Dr1 & Dr2 & Dr3 & Dr4). destruct X.
  assert (Sub : forall x, In x r -> In x (rdown ch)) by (intros x Hx; rewrite Ed; right; exact Hx).
  constructor; rewrite ?Dr1, ?Dr2, ?Dr3, ?Cu; try assumption; try (intros; discriminate).
  - intros Hf. destruct (pi_fresh Hf) as (K & _). unfold rdown in Ed; rewrite K in Ed; discriminate.
  - intros K. apply pi_done, Sub, K.
  - intros _. destruct (pi_local eq_refl) as (A & B). split; [exact A|]. intros _.
    destruct (B En) as (B1 & B2 & B3 & B4 & B5). split; [exact Dr4|]. split; [exact B2|].
    split; [intros ck I; apply B3, Sub, I|]. split; [intros cs I; apply (B4 cs), Sub, I|exact B5].
  - intros Hh. destruct (pi_wait Hh) as (B1 & B2 & B3 & B4 & B5 & B6 & B7). ands. intros; discriminate.
  - intros Hc. destruct (pi_told Hc) as [A|(A & B & C)]; [auto|right]. ands. intros; discriminate.
  - destruct pi_from as [B1 B2]. split; [|exact B2]. intros cs c I. apply B1, Sub, I.
Qed.

Lemma local_ok_inv P d G hd last clean j p t H H' ch c :
  pinv P d G hd last clean j p t H None SReadLocal ch ->
  ch_new ch = [] -> rt_unver t = [] -> c = wire P (rt_ck t) ->
  hi_list H' = firstn (nb t) (hi_list H) -> hi_last H' = Some c -> hi_global H' = false ->
  pinv P d G hd last clean j p t H' None SSend ch.
Proof.
  intros X En Eu Ec E1 E2 E3. destruct X.
  destruct (pi_local eq_refl) as (A & B). destruct (B En) as (B1 & B2 & B3 & B4 & B5).
  assert (Hd : ~ In j hd) by (intros E; destruct (pi_hd E); discriminate).
  rewrite (cur_up_none _ En) in A.
  assert (Cn : cnt t = nb t) by (unfold cnt; rewrite Eu; cbn; lia).
  assert (Ln : length (hi_list H') = nb t) by (rewrite E1, firstn_length; lia).
  assert (Sk : skipn (nb t) (map keyof (hi_list H')) = []) by (apply skipn_all2; rewrite map_length; lia).
  assert (W : Forall (wr d) (hi_list H')) by (rewrite E1; exact pi_wr).
  constructor; rewrite ?A; try assumption; try (intros; congruence); try (intros; contradiction); try (split; discriminate).
  - lia.
  - apply Forall_firstn', W.
  - intros Hm l El. rewrite E2 in El. injection El as <-. rewrite Ec. cbn. split; [lia|auto].
  - intros _. left. rewrite En. intros x [].
  - intros Hc. rewrite Cn. split; [lia|]. split; [apply Forall_firstn', W|apply fits_nil].
  - intros _. split; [|rewrite En; intros l1 x K; destruct l1; discriminate]. intros _.
    split; [exact B1|]. intros Hc. rewrite Cn, Sk. reflexivity.
  - intros _. rewrite (cur_up_none _ En), A. intros [].
  - intros _ _ cs I. exfalso; exact (B4 _ I).
  - intros Hc. left. exact (B5 Hc).
  - destruct pi_from as [K _]. split; [exact K|]. intros; discriminate.
  - rewrite A in pi_q. exact pi_q.
Qed.

Lemma global_k_inv P d G hd last clean k p t H H' ch c :
  pinv P d G hd last clean k p t H None SErr ch ->
  over (rt_ph t) = true -> c = wire P (rt_ck t) -> last <> Some k ->
  hi_list H' = firstn (nb t) (hi_list H) -> hi_last H' = Some c ->
  pinv P d G (k :: hd) last clean k p t H' None SErr ch.
Proof.
  intros X Ho Ec Nl E1 E2.
  assert (Nc : connected (rt_ph t) = false) by (destruct (rt_ph t); cbn in *; congruence).
  assert (Nh : held (rt_ph t) = false) by (destruct (rt_ph t); cbn in *; congruence).
  destruct X.
  assert (Ln : length (hi_list H') = nb t) by (rewrite E1, firstn_length; lia).
  assert (W : Forall (wr d) (hi_list H')) by (rewrite E1; exact pi_wr).
  constructor; try assumption; try (intros; congruence); try (intros; discriminate).
  - lia.
  - apply Forall_firstn', W.
  - intros _. auto.
  - intros Hm l El. rewrite E2 in El. injection El as <-. rewrite Ec. cbn. split; [lia|auto].
Qed.

Lemma global_i_inv P d G hd last clean i p t H c cs ch :
  pinv P d G hd last clean i p t H None (SGlobal (c :: cs)) ch ->
  (forall c', wire P c' = c -> handled P hd c') ->
  pinv P d G hd last clean i p t H None (after_global cs) ch.
Proof.
  intros X Hh. destruct X.
  destruct (pi_glob _ eq_refl) as (A1 & A2 & A3 & A4).
  assert (Gl : hi_global H = false) by (apply Bool.not_true_is_false; intros E; specialize (pi_hglob E); discriminate).
  assert (Hd : ~ In i hd) by (intros E; destruct (pi_hd E); discriminate).
  assert (Nh : held (rt_ph t) = false).
  { apply Bool.not_true_is_false; intros E. destruct (pi_wait E) as (_ & _ & _ & _ & K & _). exact (K _ eq_refl). }
  assert (Ag : active (after_global cs) = true) by (destruct cs; reflexivity).
  assert (Pe : connected (rt_ph t) = true -> reading (rt_ph t) = true /\
            forall x, In x (firstn (rt_pend t) G) -> handled P hd x \/ In (wire P x) cs).
  { intros Hc. destruct (A4 Hc) as [K1 K2]. split; [exact K1|]. intros x Hx.
    destruct (K2 x Hx) as [K|[K|K]]; auto. }
  constructor; try assumption; try (intros; congruence); try (intros; contradiction).
  - destruct cs; split; discriminate.
  - intros _. apply pi_cur; reflexivity.
  - intros _. rewrite (cur_up_none _ A1), A2. intros [].
  - destruct cs; intros; discriminate.
  - destruct cs; intros; discriminate.
  - intros _ _ cs' I. exfalso; exact (A3 _ I).
  - intros rest E. assert (rest = cs) by (destruct cs; [discriminate|injection E as <-; reflexivity]). subst rest.
    ands. exact Pe.
  - intros Hc. destruct (Pe Hc) as [K1 K2]. destruct cs as [|c1 cs].
    + left. intros x Hx. destruct (K2 x Hx) as [K|[]]; exact K.
    + right. ands. intros _. left. eexists; reflexivity.
  - destruct pi_from as [B1 B2]. split; [exact B1|]. intros rest x E I.
    assert (rest = cs) by (destruct cs; [discriminate|injection E as <-; reflexivity]). subst rest.
    eapply B2; [reflexivity|right; exact I].
Qed.

(** Blocks come back through port [i]. *)
Lemma rebase P w hd last clean i p t H F ph ch :
  minv P w hd last clean -> at_port P w i p t H F ph ch ->
  ~ In UDone (rup ch) -> ch_new ch = [] -> waitp (rt_ph t) = false -> ~ In i hd ->
  minv P w hd (Some i) (fun _ => false).
Proof.
  intros M A N1 N2 N3 N4. pose proof (mi_ports _ _ _ _ _ M) as Pt. destruct M. constructor; try assumption.
  - intros j p2 t2 H2 F2 ph2 ch2 B. specialize (Pt _ _ _ _ _ _ _ B).
    destruct (Nat.eq_dec j i) as [-> | Hn].
    + destruct A as (A1 & A2 & A3 & A4 & A5 & A6). destruct B as (B1 & B2 & B3 & B4 & B5 & B6).
      rewrite A2 in B2; injection B2 as <-. rewrite A6 in B6; injection B6 as <-.
      destruct Pt. constructor; try assumption.
      * intros _ [K|[(c & K & _)|K]]; [contradiction|rewrite N2 in K; destruct K|congruence].
      * auto.
    + eapply pinv_q; [|exact Pt|]; [intros [K|K]; congruence|intros K; congruence].
  - intros j K; discriminate.
  - intros j K. injection K as <-. destruct A as (A1 & _). apply nth_error_Some; congruence.
Qed.
