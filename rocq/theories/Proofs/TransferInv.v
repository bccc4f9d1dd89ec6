From Verif Require Export Spec.TransferSpec.
From Verif Require Import Proofs.QueueMonitorFacts Proofs.HistoryFacts Proofs.RecvSessionFacts.
From Coq Require Import Lia Permutation.

(** ** Phases *)

Definition connected (p : rphase) : bool :=
  match p with
  | PSendLocal | PRead | PChunks | PSendGlobal | PWait | PCheck | PSleep | PSendWait => true
  | _ => false
  end.
Definition waitp (p : rphase) : bool :=
  match p with PWait | PCheck | PSleep | PSendWait => true | _ => false end.
Definition held (p : rphase) : bool :=
  match p with PWait | PCheck | PSleep | PSendWait | PSendGlobal => true | _ => false end.
Definition reading (p : rphase) : bool := match p with PRead | PChunks => true | _ => false end.
Definition over (p : rphase) : bool := match p with PEnd | PGone => true | _ => false end.
Definition fresh (p : rphase) : bool := match p with PListen | PFirst => true | _ => false end.
Definition finishing (p : rphase) : bool := match p with PSendDone | PAwaitAck => true | _ => false end.
Definition active (p : sphase) : bool :=
  match p with SSend | SReadCmd | SGlobal _ => true | _ => false end.

(** ** Messages *)

Definition rup (ch : chan) : list upmsg := match ch_r ch with Some c => cn_up c | None => [] end.
Definition rdown (ch : chan) : list downmsg := match ch_r ch with Some c => cn_down c | None => [] end.
Definition cur_up (ch : chan) : list upmsg :=
  match rev (ch_new ch) with c :: _ => cn_up c | [] => rup ch end.

Definition keyof (h : hsrc) : piece := (s_seqId (h_src h), s_offset (h_src h), s_size (h_src h)).
Definition ukey (m : upmsg) : list piece :=
  match m with UBlock s o n | UPart s o n _ => [(s, o, n)] | UDone => [] end.
Definition ukeys (l : list upmsg) : list piece := flat_map ukey l.

Definition prefix (l l' : list piece) : Prop := exists r, l' = l ++ r.

(** [up] is what is left of the blocks after the first [n]. *)
Definition fits (up : list upmsg) (n : nat) (l : list hsrc) (F : option hsrc) : Prop :=
  prefix (ukeys up) (skipn n (map keyof l)) /\
  (forall l1 l2, up = l1 ++ UDone :: l2 -> l2 = []) /\
  (In UDone up -> ukeys up = skipn n (map keyof l) /\ F = None).

Lemma fits_nil n l F : fits [] n l F.
Proof.
  split; [|split].
  - exists (skipn n (map keyof l)). reflexivity.
  - intros [|x l1] l2 E; discriminate.
  - intros [].
Qed.

Definition nb (t : rthread) : nat := Z.to_nat (ck_numBlocks (rt_ck t)).
Definition cnt (t : rthread) : nat := (nb t + length (rt_unver t))%nat.

Definition wr (d : list piece) (h : hsrc) : Prop := In (keyof h) d.

Definition handled (P : tparams) (hd : list nat) (c : checkpoint) : Prop :=
  exists k, In k hd /\ nth_error (tp_ports P) k = Some (ck_port c).

(** ** One port *)

Record pinv (P : tparams) (d : list piece) (G : list checkpoint) (hd : list nat)
  (last : option nat) (clean : nat -> bool)
  (j : nat) (p : Z) (t : rthread) (H : history) (F : option hsrc) (ph : sphase) (ch : chan) : Prop := {
  (* the receiver's count *)
  pi_port : ck_port (rt_ck t) = p;
  pi_n0 : 0 <= ck_numBlocks (rt_ck t);
  pi_len : (nb t <= length (hi_list H))%nat;
  pi_wr : Forall (wr d) (firstn (nb t) (hi_list H));
  pi_part : 0 <= ck_lastBlockReceivedBytes (rt_ck t) /\
    forall x, ck_lastBlockOffset (rt_ck t) <= x <
              ck_lastBlockOffset (rt_ck t) + ck_lastBlockReceivedBytes (rt_ck t) ->
              holds d (ck_lastBlockSeqId (rt_ck t)) x;
  pi_nopart : tp_mode P <> Plain -> ck_lastBlockReceivedBytes (rt_ck t) = 0;
  (* the receiver's phases *)
  pi_st : finishing (rt_ph t) = false /\ (rt_st t = RFinished -> over (rt_ph t) = true) /\
          (rt_st t = RWaiting -> waitp (rt_ph t) = true);
  pi_fresh : fresh (rt_ph t) = true -> ch_r ch = None /\ rt_ck t = checkpoint_new p /\ rt_unver t = [];
  pi_sl : rt_ph t = PSendLocal -> rt_unver t = [];
  pi_sg : rt_ph t = PSendGlobal -> exists rest, skipn (rt_idx t) G = rt_new t ++ rest;
  pi_ip : over (rt_ph t) = false -> (rt_idx t <= length G /\ rt_pend t <= length G)%nat;
  pi_G : over (rt_ph t) = true -> In (rt_ck t) G;
  (* the sender's thread *)
  pi_fl : ph <> SSend -> F = None;
  pi_ph : ph <> SDone /\ ph <> SOk;
  pi_hglob : hi_global H = true -> ph = SErr;
  pi_hd : In j hd -> ph = SErr /\ over (rt_ph t) = true /\ length (hi_list H) = nb t;
  pi_last : tp_mode P <> Plain -> forall l, hi_last H = Some l ->
    ck_numBlocks l <= ck_numBlocks (rt_ck t) /\ ck_lastBlockReceivedBytes l = 0;
  (* connections *)
  pi_done : ~ In DDone (rdown ch);
  pi_newdown : forall c, In c (ch_new ch) -> cn_down c = [];
  pi_backlog : over (rt_ph t) = false ->
    (forall c, In c (ch_new ch) -> cn_up c = []) \/
    (cnt t = 0%nat /\ rup ch = [] /\ exists l1 c l2, ch_new ch = l1 ++ c :: l2 /\
       (forall x, In x (l1 ++ l2) -> cn_up x = []) /\ fits (cn_up c) 0 (hi_list H) F);
  pi_r : connected (rt_ph t) = true ->
    (cnt t <= length (hi_list H))%nat /\ Forall (wr d) (firstn (cnt t) (hi_list H)) /\
    fits (rup ch) (cnt t) (hi_list H) F;
  pi_cur : active ph = true ->
    (ch_new ch = [] -> ch_r ch <> None /\
       (connected (rt_ph t) = true -> ukeys (rup ch) = skipn (cnt t) (map keyof (hi_list H)))) /\
    (forall l1 c, ch_new ch = l1 ++ [c] -> over (rt_ph t) = false ->
       (forall x, In x l1 -> cn_up x = []) /\ rup ch = [] /\ cnt t = 0%nat /\
       held (rt_ph t) = false /\ ukeys (cn_up c) = map keyof (hi_list H));
  pi_nodone : ph = SSend -> ~ In UDone (cur_up ch);
  pi_first : ph = SConnect true ->
    hi_list H = [] /\ rup ch = [] /\ cnt t = 0%nat /\ (forall c, In c (ch_new ch) -> cn_up c = []) /\
    (connected (rt_ph t) = true -> forall c, In c (firstn (rt_pend t) G) -> handled P hd c);
  pi_local : ph = SReadLocal -> cur_up ch = [] /\
    (ch_new ch = [] -> ch_r ch <> None /\ held (rt_ph t) = false /\
       (forall ck, In (DLocal ck) (rdown ch) -> ck = wire P (rt_ck t) /\ rt_unver t = []) /\
       (forall cs, ~ In (DErr cs) (rdown ch)) /\
       (connected (rt_ph t) = true -> forall c, In c (firstn (rt_pend t) G) -> handled P hd c));
  pi_wait : held (rt_ph t) = true ->
    cnt t = length (hi_list H) /\ F = None /\ rup ch = [] /\ ph <> SSend /\
    (forall cs, ph <> SGlobal cs) /\ ph <> SConnect true /\
    (ph = SReadCmd -> ch_new ch = [] /\ forall cs, ~ In (DErr cs) (rdown ch));
  (* checkpoints told *)
  pi_idx : over (rt_ph t) = false -> forall c, In c (firstn (rt_idx t) G) -> handled P hd c;
  pi_err : active ph = true -> ch_new ch = [] ->
    forall cs, In (DErr cs) (rdown ch) ->
      ph = SReadCmd /\ rup ch = [] /\
      (exists l, rdown ch = l ++ [DErr cs] /\ forall cs', ~ In (DErr cs') l) /\
      (connected (rt_ph t) = true -> reading (rt_ph t) = true /\
         forall c, In c (firstn (rt_pend t) G) -> handled P hd c \/ In (wire P c) cs);
  pi_glob : forall rest, ph = SGlobal rest -> ch_new ch = [] /\ rup ch = [] /\
    (forall cs, ~ In (DErr cs) (rdown ch)) /\
    (connected (rt_ph t) = true -> reading (rt_ph t) = true /\
       forall c, In c (firstn (rt_pend t) G) -> handled P hd c \/ In (wire P c) rest);
  pi_told : connected (rt_ph t) = true ->
    (forall c, In c (firstn (rt_pend t) G) -> handled P hd c) \/
    (rup ch = [] /\ reading (rt_ph t) = true /\
     (active ph = true -> (exists rest, ph = SGlobal rest) \/
        (ph = SReadCmd /\ ch_new ch = [] /\ exists cs, In (DErr cs) (rdown ch))));
  pi_from : (forall cs c, In (DErr cs) (rdown ch) -> In c cs -> exists c', In c' G /\ c = wire P c') /\
    (forall rest c, ph = SGlobal rest -> In c rest -> exists c', In c' G /\ c = wire P c');
  (* the queue was empty when this port's DONE was written *)
  pi_q : (last = None \/ last = Some j) ->
    (In UDone (rup ch) \/ (exists c, In c (ch_new ch) /\ In UDone (cn_up c)) \/
     waitp (rt_ph t) = true) -> clean j = true;
  pi_lastq : last = Some j -> clean j = false -> ~ In j hd
}.

(** ** Everything else *)

Definition at_port (P : tparams) (w : world) (j : nat) (p : Z) (t : rthread) (H : history)
  (F : option hsrc) (ph : sphase) (ch : chan) : Prop :=
  nth_error (tp_ports P) j = Some p /\ nth_error (rs_threads (w_r w)) j = Some t /\
  nth_error (sn_hist (w_s w)) j = Some H /\ nth_error (sn_flight (w_s w)) j = Some F /\
  nth_error (w_sph w) j = Some ph /\ nth_error (w_chan w) j = Some ch.

(** A block that was shortened has its first bytes on disk. *)
Definition okb (d : list piece) (h : hsrc) : Prop :=
  s_offset (h_src h) + s_size (h_src h) = h_o h + h_n h /\
  forall x, h_o h <= x < s_offset (h_src h) -> holds d (s_seqId (h_src h)) x.

Definition oks (d : list piece) (s : sender) : Prop :=
  Forall (okb d) (sn_queue s) /\ (forall h, In (Some h) (sn_flight s) -> okb d h) /\
  Forall (fun hi => Forall (okb d) (hi_list hi)) (sn_hist s) /\ Forall (okb d) (sn_failed s).

Record minv (P : tparams) (w : world) (hd : list nat) (last : option nat) (clean : nat -> bool) : Prop := {
  mi_len : length (rs_threads (w_r w)) = length (tp_ports P) /\
           length (sn_hist (w_s w)) = length (tp_ports P) /\
           length (sn_flight (w_s w)) = length (tp_ports P) /\
           length (w_sph w) = length (tp_ports P) /\ length (w_chan w) = length (tp_ports P);
  mi_abort : rs_abort (w_r w) = false;
  mi_gone : rs_gone (w_r w) = gones (rs_threads (w_r w));
  mi_G : forall c, In c (rs_ckpts (w_r w)) -> exists k t, nth_error (rs_threads (w_r w)) k = Some t /\
           over (rt_ph t) = true /\ c = rt_ck t;
  mi_ports : forall j p t H F ph ch, at_port P w j p t H F ph ch ->
           pinv P (w_disk w) (rs_ckpts (w_r w)) hd last clean j p t H F ph ch;
  mi_blocks : oks (w_disk w) (w_s w);
  mi_clean : forall j, clean j = true -> sn_queue (w_s w) = [] /\ w_init w = true;
  mi_ref : tp_mode P <> Plain -> w_refused w = false;
  mi_last : forall j, last = Some j -> (j < length (tp_ports P))%nat
}.

(** The receiver has ended without reporting the end of the transfer. *)
Definition dead (w : world) : Prop :=
  (forall t, In t (rs_threads (w_r w)) -> rt_ph t = PGone) /\
  (forall ch, In ch (w_chan w) -> ~ In DDone (rdown ch)) /\
  (forall ph, In ph (w_sph w) -> ph <> SDone /\ ph <> SOk).

(** Everything was delivered. *)
Definition final (w : world) : Prop :=
  w_init w = true /\
  forall x, In x (map ident (all_blocks (w_s w))) -> reported w x \/ delivered (w_disk w) x.

Definition winv (P : tparams) (w : world) : Prop :=
  final w \/ dead w \/ (tp_mode P = Plain /\ w_refused w = true) \/
  exists hd last clean, minv P w hd last clean.

(** ** Growing *)

Lemma holds_app d d' s x : holds d s x -> holds (d ++ d') s x.
Proof. intros (lo & n & H & B). exists lo, n. split; [apply in_or_app; auto|exact B]. Qed.
Lemma wr_app d d' l : Forall (wr d) l -> Forall (wr (d ++ d')) l.
Proof. apply Forall_impl. intros h H; apply in_or_app; auto. Qed.
Lemma okb_app d d' h : okb d h -> okb (d ++ d') h.
Proof. intros [A B]; split; [exact A|]. intros x Hx; apply holds_app, B, Hx. Qed.
Lemma oks_app d d' s : oks d s -> oks (d ++ d') s.
Proof.
  intros (A & B & C & D). split; [|split; [|split]].
  - eapply Forall_impl; [|exact A]. intros; apply okb_app; auto.
  - intros h Hh; apply okb_app, B, Hh.
  - eapply Forall_impl; [|exact C]. intros hi Hi. eapply Forall_impl; [|exact Hi]. intros; apply okb_app; auto.
  - eapply Forall_impl; [|exact D]. intros; apply okb_app; auto.
Qed.

Lemma pinv_disk P d d' G hd last clean j p t H F ph ch :
  pinv P d G hd last clean j p t H F ph ch -> pinv P (d ++ d') G hd last clean j p t H F ph ch.
Proof.
  intros []. constructor; try assumption.
  - apply wr_app; assumption.
  - destruct pi_part0 as [A B]. split; [exact A|]. intros x Hx; apply holds_app, B, Hx.
  - intros Hc. destruct (pi_r0 Hc) as (A & B & C). split; [exact A|]. split; [apply wr_app, B|exact C].
Qed.

Lemma handled_in P hd hd' c : incl hd hd' -> handled P hd c -> handled P hd' c.
Proof. intros I (k & A & B). exists k; auto. Qed.

Lemma pinv_hd P d G hd hd' last clean j p t H F ph ch :
  incl hd hd' -> (In j hd' -> In j hd) ->
  pinv P d G hd last clean j p t H F ph ch -> pinv P d G hd' last clean j p t H F ph ch.
Proof.
  intros I J []. constructor; try assumption.
  - auto.
  - intros E. destruct (pi_first0 E) as (A & B & C & D & K). repeat (split; [assumption|]).
    intros Hc c Hin. eapply handled_in; [exact I|]. apply K; assumption.
  - intros E. destruct (pi_local0 E) as (A & B). split; [exact A|]. intros En.
    destruct (B En) as (B1 & B2 & B3 & B4 & B5). repeat (split; [assumption|]).
    intros Hc c Hin. eapply handled_in; [exact I|]. apply B5; assumption.
  - intros Ho c Hin. eapply handled_in; [exact I|]. apply pi_idx0; assumption.
  - intros Ha En cs Hin. destruct (pi_err0 Ha En cs Hin) as (A & B & C & D).
    repeat (split; [assumption|]). intros Hc. destruct (D Hc) as [D1 D2]. split; [exact D1|].
    intros c Hi. destruct (D2 c Hi); [left; eapply handled_in; eassumption|auto].
  - intros rest E. destruct (pi_glob0 rest E) as (A & B & C & D). repeat (split; [assumption|]).
    intros Hc. destruct (D Hc) as [D1 D2]. split; [exact D1|].
    intros c Hi. destruct (D2 c Hi); [left; eapply handled_in; eassumption|auto].
  - intros Hc. destruct (pi_told0 Hc) as [A|A]; [left|right; exact A].
    intros c Hin. eapply handled_in; [exact I|]. apply A; assumption.
  - intros E1 E2 Hin. exact (pi_lastq0 E1 E2 (J Hin)).
Qed.

Lemma firstn_app_le {A} n (l l' : list A) : (n <= length l)%nat -> firstn n (l ++ l') = firstn n l.
Proof. intros L. rewrite firstn_app. replace (n - length l)%nat with 0%nat by lia. rewrite firstn_O, app_nil_r. reflexivity. Qed.
Lemma skipn_app_le {A} n (l l' : list A) : (n <= length l)%nat -> skipn n (l ++ l') = skipn n l ++ l'.
Proof. intros L. rewrite skipn_app. replace (n - length l)%nat with 0%nat by lia. reflexivity. Qed.

Lemma connected_over p : connected p = true -> over p = false.
Proof. destruct p; cbn; congruence. Qed.
Lemma held_connected p : held p = true -> connected p = true.
Proof. destruct p; cbn; congruence. Qed.

Lemma pinv_G P d G x hd last clean j p t H F ph ch :
  pinv P d G hd last clean j p t H F ph ch -> pinv P d (G ++ x) hd last clean j p t H F ph ch.
Proof.
  intros [].
  assert (Fi : over (rt_ph t) = false -> firstn (rt_idx t) (G ++ x) = firstn (rt_idx t) G).
  { intros Ho. destruct (pi_ip0 Ho). apply firstn_app_le; assumption. }
  assert (Fp : connected (rt_ph t) = true -> firstn (rt_pend t) (G ++ x) = firstn (rt_pend t) G).
  { intros Ho. apply connected_over in Ho. destruct (pi_ip0 Ho). apply firstn_app_le; assumption. }
  constructor; try assumption.
  - intros E. destruct (pi_sg0 E) as [rest R]. exists (rest ++ x).
    rewrite skipn_app_le, R, app_assoc; [reflexivity|]. apply pi_ip0. rewrite E; reflexivity.
  - intros Ho. destruct (pi_ip0 Ho). rewrite app_length. lia.
  - intros Ho. apply in_or_app; auto.
  - intros E. destruct (pi_first0 E) as (A & B & C & D & K). repeat (split; [assumption|]).
    intros Hc. rewrite (Fp Hc). auto.
  - intros E. destruct (pi_local0 E) as (A & B). split; [exact A|]. intros En.
    destruct (B En) as (B1 & B2 & B3 & B4 & B5). repeat (split; [assumption|]).
    intros Hc. rewrite (Fp Hc). auto.
  - intros Ho. rewrite (Fi Ho). auto.
  - intros Ha En cs Hin. destruct (pi_err0 Ha En cs Hin) as (A & B & C & D).
    repeat (split; [assumption|]). intros Hc. rewrite (Fp Hc). auto.
  - intros rest E. destruct (pi_glob0 rest E) as (A & B & C & D). repeat (split; [assumption|]).
    intros Hc. rewrite (Fp Hc). auto.
  - intros Hc. rewrite (Fp Hc). auto.
  - destruct pi_from0 as [A B]. split.
    + intros cs c H1 H2. destruct (A cs c H1 H2) as (c' & I & E). exists c'. split; [apply in_or_app; auto|exact E].
    + intros rest c H1 H2. destruct (B rest c H1 H2) as (c' & I & E). exists c'. split; [apply in_or_app; auto|exact E].
Qed.

Lemma pinv_q P d G hd last last' clean clean' j p t H F ph ch :
  ((last' = None \/ last' = Some j) -> (last = None \/ last = Some j) /\ (clean j = true -> clean' j = true)) ->
  pinv P d G hd last clean j p t H F ph ch ->
  (last' = Some j -> clean' j = false -> ~ In j hd) ->
  pinv P d G hd last' clean' j p t H F ph ch.
Proof.
  intros I [] J. constructor; try assumption.
  intros E K. destruct (I E) as [A B]. apply B, pi_q0; assumption.
Qed.

(** ** Small facts *)

Lemma wire_port P c : ck_port (wire P c) = ck_port c. Proof. reflexivity. Qed.

Lemma rdown_up ch m : rdown (put_up ch m) = rdown ch.
Proof.
  unfold put_up, rdown. destruct (rev (ch_new ch)); [|reflexivity].
  destruct (ch_r ch) as [c|] eqn:E; [reflexivity|rewrite E; reflexivity].
Qed.
Lemma rev_cons_eq {A} (l : list A) x r : rev l = x :: r -> l = rev r ++ [x].
Proof. intros E. rewrite <- (rev_involutive l), E. reflexivity. Qed.

Lemma put_up_none ch m : ch_new ch = [] -> forall c, ch_r ch = Some c ->
  put_up ch m = {| ch_r := Some (send_up c m); ch_new := [] |}.
Proof. intros E c Ec. unfold put_up. rewrite E; cbn. rewrite Ec. reflexivity. Qed.
Lemma put_up_last ch m l c : ch_new ch = l ++ [c] ->
  put_up ch m = {| ch_r := ch_r ch; ch_new := l ++ [send_up c m] |}.
Proof. intros E. unfold put_up. rewrite E, rev_app_distr; cbn. rewrite rev_involutive. reflexivity. Qed.
Lemma cur_up_none ch : ch_new ch = [] -> cur_up ch = rup ch.
Proof. intros E. unfold cur_up; rewrite E; reflexivity. Qed.
Lemma cur_up_last ch l c : ch_new ch = l ++ [c] -> cur_up ch = cn_up c.
Proof. intros E. unfold cur_up; rewrite E, rev_app_distr; reflexivity. Qed.

Lemma take_down_inv ch m ch' : take_down ch = Some (m, ch') ->
  ch_new ch = [] /\ exists c r, ch_r ch = Some c /\ cn_down c = m :: r /\
  ch' = {| ch_r := Some {| cn_up := cn_up c; cn_down := r |}; ch_new := [] |}.
Proof.
  unfold take_down. destruct (ch_new ch); [|discriminate]. destruct (ch_r ch) as [c|]; [|discriminate].
  destruct (cn_down c) as [|m' r] eqn:E; [discriminate|]. intros X; injection X as -> <-.
  split; [reflexivity|]. exists c, r; auto.
Qed.

Lemma last_cases {A} (l : list A) : l = [] \/ exists l1 x, l = l1 ++ [x].
Proof. destruct l as [|a l] using rev_ind; [auto|right; eauto]. Qed.

Lemma ukeys_app a b : ukeys (a ++ b) = ukeys a ++ ukeys b.
Proof. unfold ukeys; apply flat_map_app. Qed.
Lemma prefix_refl l : prefix l l. Proof. exists []; symmetry; apply app_nil_r. Qed.
Lemma prefix_app l l' r : prefix l l' -> prefix l (l' ++ r).
Proof. intros [x ->]. exists (x ++ r). rewrite app_assoc; reflexivity. Qed.
Lemma nodone_form up : ~ In UDone up -> forall l1 l2, up = l1 ++ UDone :: l2 -> l2 = [].
Proof. intros N l1 l2 ->. exfalso; apply N, in_or_app; right; left; reflexivity. Qed.
