(** Proofs about heart beats. *)
From Coq Require Import Lia ZArith List Bool.
From Verif Require Import Model.HeartBeat Spec.HeartBeatSpec.
Import ListNotations.
Open Scope Z_scope.

Lemma zlen_len (l : list Z) : zlen l = Z.of_nat (length l).
Proof. unfold zlen. reflexivity. Qed.
Lemma Forall_skipn {A} (P : A -> Prop) n l : Forall P l -> Forall P (skipn n l).
Proof.
  revert l. induction n as [|n IH]; intros l F; [exact F|]. destruct l; [constructor|]. cbn. apply IH.
  inversion F; assumption.
Qed.
Lemma Forall_firstn {A} (P : A -> Prop) n l : Forall P l -> Forall P (firstn n l).
Proof.
  revert l. induction n as [|n IH]; intros l F; [constructor|]. destruct l; [constructor|]. cbn.
  inversion F; subst. constructor; [assumption|]. apply IH; assumption.
Qed.
Lemma beats_forallb l : Forall is_beat l -> forallb (Z.eqb HEART_BEAT_CMD) l = true.
Proof. induction 1 as [|x l E F IH]; [reflexivity|]. cbn. rewrite IH. unfold is_beat in E. subst. reflexivity. Qed.

Definition Inv (c : conn) (ans : list (list Z)) : Prop :=
  cn_gone c = false /\ Forall (fun r => r = OK \/ r = SOCKET_READ_ERROR) (cn_results c) /\
  match cn_ph c with
  | PSend => cn_answered c = false /\ Forall is_beat (cn_chan c) /\ ans = rev (cn_taken c)
  | PWait =>
      if cn_answered c then exists h b, cn_chan c = h ++ b /\ Forall is_beat h /\ is_answer b /\ ans = rev (cn_taken c) ++ [b]
      else Forall is_beat (cn_chan c) /\ ans = rev (cn_taken c)
  | PGot => ans = rev (cn_taken c)
  | PChecked f => f = false /\ ans = rev (cn_taken c)
  end.

Lemma Inv_step en T c e c' ans : Inv c ans -> (forall b, e <> EAbort b) -> (forall b, e = EAnswer b -> is_answer b) ->
  hstep en T c e = Some (Ret c') -> Inv c' (ans ++ answers [e]).
Proof.
  destruct c as [ph an g ch rl sl nb rs tk]. intros (G & R & P) NA IA H. cbn in G, R, P. subst g.
  destruct e as [now|now got| |b| | |b|]; cbn [hstep upd answers] in *; rewrite ?app_nil_r.
  - destruct ph; try discriminate; destruct an; try discriminate; cbn [orb] in H;
      destruct (send_beat en T rl now) as [rl' s]; injection H as <-; unfold Inv; cbn [upd cn_ph cn_answered cn_gone cn_chan cn_results cn_taken];
      (split; [reflexivity|split; [exact R|]]).
    + destruct P as (_ & P & Q). split; [reflexivity|]. split; [|exact Q]. destruct s; [|exact P].
      apply Forall_app. split; [exact P|]. repeat constructor.
    + destruct P as (P & Q). split; [|exact Q]. destruct s; [|exact P].
      apply Forall_app. split; [exact P|]. repeat constructor.
  - destruct ph; try discriminate. destruct (got <=? zlen ch); try discriminate.
    destruct P as (A & P & Q). injection H as H. unfold read_beats in H.
    destruct en; [destruct (int_ok (T * 10)); [destruct (since_ms now sl <=? T * 10); [|destruct (got <=? 0)]|]|];
      cbn [obind] in H; try discriminate; injection H as <-; unfold Inv; cbn [upd cn_ph cn_answered cn_gone cn_chan cn_results cn_taken].
    + repeat split; try assumption. constructor; [left; reflexivity|exact R].
    + repeat split; try assumption. constructor; [right; reflexivity|exact R].
    + repeat split; try assumption; [|apply Forall_skipn; exact P].
      constructor; [|exact R]. left. rewrite beats_forallb; [reflexivity|]. apply Forall_firstn; exact P.
    + repeat split; try assumption. constructor; [left; reflexivity|exact R].
  - destruct ph; try discriminate. injection H as <-. destruct P as (A & P & Q). subst an.
    unfold Inv; cbn. repeat split; assumption.
  - destruct ph; try discriminate. destruct an; try discriminate. injection H as <-. destruct P as (P & Q).
    unfold Inv; cbn. repeat split; try assumption. exists ch, b. repeat split; try assumption; [apply (IA b); reflexivity|].
    rewrite Q. reflexivity.
  - destruct ph; try discriminate. destruct ch as [|x r]; try discriminate.
    destruct (Z.eqb_spec x HEART_BEAT_CMD) as [E|E]; injection H as <-; unfold Inv; cbn;
      (split; [reflexivity|split; [exact R|]]).
    + destruct an.
      * destruct P as (h & b & C & F & I & Q). destruct h as [|y h].
        -- exfalso. cbn in C. subst b. destruct I as (y & s & C & N). injection C as <- _. contradiction.
        -- cbn in C. injection C as <- C. exists h, b. inversion F; subst. repeat split; assumption.
      * destruct P as (P & Q). inversion P; subst. split; [assumption|reflexivity].
    + destruct an.
      * destruct P as (h & b & C & F & I & Q). destruct h as [|y h].
        -- cbn in C. subst b. exact Q.
        -- exfalso. cbn in C. injection C as <- C. inversion F; subst. contradiction.
      * destruct P as (P & Q). inversion P; subst. contradiction.
  - destruct ph; try discriminate. injection H as <-. unfold Inv; cbn. repeat split; try assumption. constructor.
  - exfalso. apply (NA b). reflexivity.
  - destruct ph; try discriminate. destruct P as (A & P & Q). destruct ch as [|x r]; injection H as <-; unfold Inv; cbn.
    + repeat split; assumption.
    + repeat split; try assumption. inversion P; subst. unfold is_beat in *. subst x. reflexivity.
Qed.

Lemma answers_cons e l : answers (e :: l) = answers [e] ++ answers l.
Proof. destruct e; reflexivity. Qed.
Lemma Inv_run en T l : forall c ans c', Inv c ans -> no_abort l -> Forall is_answer (answers l) ->
  hrun en T c l = Some (Ret c') -> Inv c' (ans ++ answers l).
Proof.
  induction l as [|e l IH]; intros c ans c' I N F H.
  - cbn in *. injection H as <-. rewrite app_nil_r. exact I.
  - cbn [hrun] in H. destruct (hstep en T c e) as [[c1| |]|] eqn:S1; try discriminate.
    rewrite answers_cons, app_assoc. rewrite answers_cons in F. apply Forall_app in F. destruct F as [F1 F2].
    apply (IH c1); [|intros b J; apply (N b); right; exact J|exact F2|exact H].
    apply (Inv_step en T c e); [exact I| | |exact S1].
    + intros b ->. apply (N b). left. reflexivity.
    + intros b ->. inversion F1; assumption.
Qed.
Lemma Inv_new a b : Inv (conn_new a b) [].
Proof. unfold Inv, conn_new; cbn. repeat split; constructor. Qed.

Lemma answers_arrive en T a b l c : no_abort l -> Forall is_answer (answers l) ->
  hrun en T (conn_new a b) l = Some (Ret c) ->
  Forall (fun r => r = OK \/ r = SOCKET_READ_ERROR) (cn_results c) /\
  (exists pending, answers l = rev (cn_taken c) ++ pending /\ (length pending <= 1)%nat /\
     (cn_ph c <> PWait -> pending = [])) /\
  (cn_ph c = PSend -> Forall is_beat (cn_chan c)) /\
  cn_ph c <> PChecked true.
Proof.
  intros N F H. pose proof (Inv_run en T l _ _ _ (Inv_new a b) N F H) as (G & R & P). cbn [app] in P.
  split; [exact R|]. destruct (cn_ph c).
  - destruct P as (A & P & Q). split; [|split; [intros _; exact P|discriminate]].
    exists []. rewrite app_nil_r. repeat split; [exact Q|cbn; lia].
  - split; [|split; discriminate]. destruct (cn_answered c).
    + destruct P as (h & x & C & _ & I & Q). exists [x]. repeat split; [exact Q|cbn; lia|intros X; elim X; reflexivity].
    + destruct P as (_ & Q). exists []. rewrite app_nil_r. repeat split; [exact Q|cbn; lia].
  - split; [|split; discriminate]. exists []. rewrite app_nil_r. repeat split; [exact P|cbn; lia].
  - destruct P as (-> & Q). split; [|split; discriminate]. exists []. rewrite app_nil_r. repeat split; [exact Q|cbn; lia].
Qed.

(** Reading on while there are heart beats. *)
Lemma read_on en T h : forall an g rl sl nb rs tk x r, Forall is_beat h -> x <> HEART_BEAT_CMD ->
  hrun en T {| cn_ph := PWait; cn_answered := an; cn_gone := g; cn_chan := h ++ x :: r; cn_rlast := rl; cn_slast := sl;
               cn_beats := nb; cn_results := rs; cn_taken := tk |} (repeat ECmd (S (length h))) =
  Some (Ret {| cn_ph := PGot; cn_answered := an; cn_gone := g; cn_chan := r; cn_rlast := rl; cn_slast := sl;
               cn_beats := nb; cn_results := rs; cn_taken := (x :: r) :: tk |}).
Proof.
  induction h as [|y h IH]; intros an g rl sl nb rs tk x r F N.
  - cbn [app repeat length hrun hstep]. destruct (Z.eqb_spec x HEART_BEAT_CMD); [contradiction|]. reflexivity.
  - inversion F as [|? ? E F']; subst. unfold is_beat in E. subst y.
    change (repeat ECmd (S (length (HEART_BEAT_CMD :: h)))) with (ECmd :: repeat ECmd (S (length h))).
    cbn [hrun]. cbn [app hstep]. rewrite Z.eqb_refl. cbn [upd]. apply IH; assumption.
Qed.

Lemma waiting_reads en T a b l c (abort : bool) d : no_abort l -> Forall is_answer (answers l) ->
  hrun en T (conn_new a b) l = Some (Ret c) -> cn_ph c = PWait -> cn_answered c = false ->
  (abort = false -> is_answer d) ->
  exists n c', hrun en T c ((if abort then EAbort d else EAnswer d) :: repeat ECmd n) = Some (Ret c') /\
    cn_ph c' = PGot /\ cn_taken c' = (if abort then ABORT_CMD :: d else d) :: cn_taken c.
Proof.
  intros N F H P A D. pose proof (Inv_run en T l _ _ _ (Inv_new a b) N F H) as (G & R & Q).
  rewrite P, A in Q. destruct Q as (Q & _). destruct c as [ph an g ch rl sl nb rs tk]. cbn in *. subst ph an g.
  exists (S (length ch)). destruct abort.
  - cbn [hrun hstep orb upd]. rewrite read_on; [|exact Q|discriminate].
    eexists. split; [reflexivity|]. split; reflexivity.
  - destruct (D eq_refl) as (x & r & -> & NX). cbn [hrun hstep orb upd]. rewrite read_on; [|exact Q|exact NX].
    eexists. split; [reflexivity|]. split; reflexivity.
Qed.

(** An abort sent while blocks are sent. *)
Definition sent (c : conn) (ab : option (list Z)) : list Z :=
  repeat HEART_BEAT_CMD (Z.to_nat (cn_beats c)) ++ match ab with Some b => ABORT_CMD :: b | None => [] end.
Definition Inv2 (c : conn) (ab : option (list Z)) : Prop :=
  0 <= cn_beats c /\ cn_ph c = PSend /\ cn_answered c = false /\ cn_gone c = (if ab then true else false) /\
  exists k, (k <= length (sent c ab))%nat /\ cn_chan c = skipn k (sent c ab).
Fixpoint aborts (l : list hev) : option (list Z) :=
  match l with [] => None | EAbort b :: _ => Some b | _ :: r => aborts r end.

Lemma skipn_app_le {A} k (l m : list A) : (k <= length l)%nat -> skipn k (l ++ m) = skipn k l ++ m.
Proof. intros H. rewrite skipn_app. replace (k - length l)%nat with 0%nat by lia. reflexivity. Qed.
Lemma skipn_skipn' {A} k j (l : list A) : skipn j (skipn k l) = skipn (k + j) l.
Proof.
  revert l. induction k as [|k IH]; intros l; [reflexivity|]. destruct l; [now rewrite !skipn_nil|]. cbn. apply IH.
Qed.

Lemma Inv2_step en T c e c' ab : Inv2 c ab -> e <> EDone -> e <> ECheck ->
  hstep en T c e = Some (Ret c') -> Inv2 c' (match ab with Some b => Some b | None => aborts [e] end).
Proof.
  destruct c as [ph an g ch rl sl nb rs tk]. intros (B & P & A & G & k & KL & C) ND NC H. cbn in B, P, A, G. subst ph an.
  unfold sent in KL, C. cbn [cn_beats cn_chan] in KL, C.
  destruct e as [now|now got| |b| | |b|]; cbn [hstep upd] in H; try discriminate; try contradiction.
  - destruct ab as [b|]; subst g; cbn [orb] in H; [discriminate|]. rewrite app_nil_r in *.
    destruct (send_beat en T rl now) as [rl' [|]]; injection H as <-; unfold Inv2, sent; cbn [upd cn_beats cn_ph cn_answered cn_gone cn_chan aborts];
      rewrite ?app_nil_r.
    + repeat split; try lia. exists k. replace (Z.to_nat (nb + 1)) with (Z.to_nat nb + 1)%nat by lia.
      rewrite repeat_app. rewrite app_length. split; [lia|]. rewrite skipn_app_le by exact KL. rewrite C. reflexivity.
    + repeat split; try lia. exists k. split; [exact KL|exact C].
  - destruct (Z.leb_spec got (zlen ch)) as [GL|]; [|discriminate]. injection H as H.
    assert (X : exists r sl' ch' j, read_beats en T sl now got ch = Ret (r, sl', ch') /\ (j <= length ch)%nat /\ ch' = skipn j ch).
    { unfold read_beats in *. destruct en; [destruct (int_ok (T * 10)); [destruct (since_ms now sl <=? T * 10); [|destruct (Z.leb_spec got 0)]|]|];
        cbn [obind] in H; try discriminate.
      - do 3 eexists. exists 0%nat. split; [reflexivity|]. split; [lia|reflexivity].
      - do 3 eexists. exists 0%nat. split; [reflexivity|]. split; [lia|reflexivity].
      - do 3 eexists. exists (Z.to_nat got). split; [reflexivity|]. split; [unfold zlen in GL; lia|reflexivity].
      - do 3 eexists. exists 0%nat. split; [reflexivity|]. split; [lia|reflexivity]. }
    destruct X as (r & sl' & ch' & j & E & JL & ->). rewrite E in H. cbn [obind] in H. injection H as <-.
    replace (match ab with Some b => Some b | None => aborts [ERead now got] end) with ab by (destruct ab; reflexivity).
    unfold Inv2, sent; cbn [upd cn_beats cn_ph cn_answered cn_gone cn_chan]. repeat split; try assumption.
    exists (k + j)%nat. rewrite C in JL. rewrite skipn_length in JL. split; [lia|]. rewrite C. apply skipn_skipn'.
  - destruct ab as [b'|]; subst g; cbn [orb] in H; [discriminate|]. injection H as <-.
    unfold Inv2, sent; cbn [upd cn_beats cn_ph cn_answered cn_gone cn_chan aborts]. repeat split; try assumption.
    rewrite app_nil_r in *. exists k. rewrite app_length. split; [lia|]. rewrite skipn_app_le by exact KL. rewrite C. reflexivity.
Qed.
Lemma Inv2_run en T l : forall c ab c', Inv2 c ab -> quiet l -> hrun en T c l = Some (Ret c') ->
  Inv2 c' (match ab with Some b => Some b | None => aborts l end).
Proof.
  induction l as [|e l IH]; intros c ab c' I (N1 & N2) H.
  - cbn in *. injection H as <-. destruct ab; exact I.
  - cbn [hrun] in H. destruct (hstep en T c e) as [[c1| |]|] eqn:S1; try discriminate.
    assert (I1 : Inv2 c1 (match ab with Some b => Some b | None => aborts [e] end)).
    { apply (Inv2_step en T c e); [exact I| | |exact S1]; intros ->; [apply N1|apply N2]; left; reflexivity. }
    assert (Q : quiet l) by (split; intros J; [apply N1|apply N2]; right; exact J).
    pose proof (IH c1 _ c' I1 Q H) as I2. destruct ab as [b|]; [exact I2|]. destruct e; exact I2.
Qed.
Lemma Inv2_new a b : Inv2 (conn_new a b) None.
Proof. unfold Inv2, conn_new, sent; cbn. repeat split; try lia. exists 0%nat. split; [lia|reflexivity]. Qed.

Lemma hrun_app en T l m : forall c, hrun en T c (l ++ m) =
  match hrun en T c l with Some (Ret c') => hrun en T c' m | other => other end.
Proof.
  induction l as [|e l IH]; intros c; [reflexivity|]. cbn [app hrun]. destruct (hstep en T c e) as [[c1| |]|]; try reflexivity. apply IH.
Qed.

(** What is left of an abort when a write fails. *)
Lemma abort_checked en T a b l c d : quiet l -> In (EAbort d) l -> hrun en T (conn_new a b) l = Some (Ret c) ->
  0 <= cn_beats c /\
  exists k c', 0 <= k <= cn_beats c + 1 + zlen d /\
    cn_chan c = skipn (Z.to_nat k) (repeat HEART_BEAT_CMD (Z.to_nat (cn_beats c)) ++ ABORT_CMD :: d) /\
    hrun en T c [ECheck] = Some (Ret c') /\
    (k < cn_beats c -> cn_ph c' = PChecked false) /\
    (k = cn_beats c -> cn_ph c' = PChecked true /\ cn_chan c' = d).
Proof.
  intros Q J H. pose proof (Inv2_run en T l _ _ _ (Inv2_new a b) Q H) as (B & P & A & G & k & KL & C). cbn [aborts] in *.
  assert (AB : aborts l = Some d).
  { clear - J H. revert H. generalize (conn_new a b). induction l as [|e l IH]; intros c0 H; [contradiction|].
    cbn [hrun] in H. destruct (hstep en T c0 e) as [[c1| |]|] eqn:S1; try discriminate.
    destruct J as [->|J]; [reflexivity|]. destruct e; try (apply (IH J c1); exact H).
    exfalso. (* a second abort *)
    assert (GN : cn_gone c1 = true).
    { destruct c0 as [[| | |] [] [] ? ? ? ? ? ?]; cbn in S1; try discriminate; injection S1 as <-; reflexivity. }
    clear - J GN H. revert c1 GN H. induction l as [|e l IH]; intros c1 GN H; [contradiction|].
    cbn [hrun] in H. destruct (hstep en T c1 e) as [[c2| |]|] eqn:S2; try discriminate.
    assert (G2 : cn_gone c2 = true).
    { destruct c1 as [ph an g ch rl sl nb rs tk]. cbn in GN. subst g.
      destruct e; cbn [hstep upd] in S2; rewrite ?orb_true_r in S2;
        repeat match goal with
               | X : context [match ?x with _ => _ end] |- _ => destruct x eqn:?; try discriminate
               | X : Some _ = Some _ |- _ => injection X as X
               end; try discriminate; try (subst c2; reflexivity);
        try (destruct (read_beats _ _ _ _ _ _) as [[[? ?] ?]| |]; cbn [obind] in S2; try discriminate; injection S2 as <-; reflexivity). }
    destruct J as [->|J]; [|apply (IH J c2 G2 H)].
    destruct c1 as [ph an g ch rl sl nb rs tk]. cbn in GN. subst g. cbn [hstep] in S2. rewrite orb_true_r in S2. destruct ph; discriminate. }
  rewrite AB in *. unfold sent in KL, C. split; [exact B|].
  exists (Z.of_nat k). rewrite app_length, repeat_length in KL. cbn [length] in KL.
  destruct c as [ph an g ch rl sl nb rs tk]. cbn [cn_beats cn_ph cn_chan cn_answered cn_gone] in *. subst ph an g.
  assert (CK : exists c', hrun en T {| cn_ph := PSend; cn_answered := false; cn_gone := true; cn_chan := ch; cn_rlast := rl;
      cn_slast := sl; cn_beats := nb; cn_results := rs; cn_taken := tk |} [ECheck] = Some (Ret c') /\
      cn_ph c' = PChecked (match ch with x :: _ => x =? ABORT_CMD | [] => false end) /\ cn_chan c' = tl ch).
  { cbn [hrun hstep upd]. destruct ch; eexists; (split; [reflexivity|]); split; reflexivity. }
  destruct CK as (c' & R & PC & CC). exists c'. rewrite Nat2Z.id.
  split; [unfold zlen; lia|]. split; [exact C|]. split; [exact R|]. rewrite PC, CC, C. split.
  - intros K. rewrite skipn_app_le by (rewrite repeat_length; lia).
    destruct (skipn k (repeat HEART_BEAT_CMD (Z.to_nat nb))) as [|x r] eqn:E.
    + exfalso. apply (f_equal (@length Z)) in E. rewrite skipn_length, repeat_length in E. cbn in E. lia.
    + cbn [app]. assert (In x (repeat HEART_BEAT_CMD (Z.to_nat nb))).
      { rewrite <- (firstn_skipn k). apply in_or_app. right. rewrite E. left. reflexivity. }
      apply repeat_spec in H0. subst x. reflexivity.
  - intros K. rewrite skipn_app_le by (rewrite repeat_length; lia).
    rewrite skipn_all2 by (rewrite repeat_length; lia). split; reflexivity.
Qed.

(** With default timings the abort is lost as soon as the receiver was busy for a while. *)
Lemma to_int_id x : - 2 ^ 31 <= x < 2 ^ 31 -> to_int x = x.
Proof. unfold to_int. intros H. rewrite Z.mod_small by lia. lia. Qed.
Definition Inv3 (a b : Z) (c : conn) : Prop :=
  cn_ph c = PSend /\ cn_slast c = b /\ 0 <= cn_beats c /\
  (cn_beats c = 0 -> cn_rlast c = a) /\ (0 < cn_beats c -> exists r, cn_chan c = HEART_BEAT_CMD :: r) /\
  (cn_gone c = false -> cn_answered c = false /\ Forall is_beat (cn_chan c)).
Lemma abort_lost T a b l c t : 0 < T -> int_ok (T * 10) = true -> quiet l ->
  In (EBeat t) l -> ms (T / 5 + 1) <= t - a < ms (2 ^ 31) ->
  (forall now got, In (ERead now got) l -> 0 <= now - b <= ms (T * 10)) ->
  hrun true T (conn_new a b) (l ++ [ECheck]) = Some (Ret c) -> cn_ph c = PChecked false.
Proof.
  intros TP IO Q J W R H. rewrite hrun_app in H.
  destruct (hrun true T (conn_new a b) l) as [[c1| |]|] eqn:H1; try discriminate.
  unfold int_ok in IO. apply andb_true_iff in IO. destruct IO as [_ IO]. apply Z.ltb_lt in IO.
  assert (X : forall l c0 c1, Inv3 a b c0 -> quiet l -> (forall now got, In (ERead now got) l -> 0 <= now - b <= ms (T * 10)) ->
    hrun true T c0 l = Some (Ret c1) -> Inv3 a b c1 /\ cn_beats c0 <= cn_beats c1 /\ (In (EBeat t) l -> 0 < cn_beats c1)).
  { clear l c c1 Q J R H H1. induction l as [|e l IH]; intros c0 c2 I (N1 & N2) R H.
    - cbn in H. injection H as <-. split; [exact I|]. split; [lia|contradiction].
    - cbn [hrun] in H. destruct (hstep true T c0 e) as [[c1| |]|] eqn:S1; try discriminate.
      assert (Q : quiet l) by (split; intros Z; [apply N1|apply N2]; right; exact Z).
      assert (ST : Inv3 a b c1 /\ cn_beats c0 <= cn_beats c1 /\ (e = EBeat t -> 0 < cn_beats c1)).
      { destruct c0 as [ph an g ch rl sl nb rs tk]. destruct I as (P & SL & B & RL & CH & GN). cbn in P, SL, B, RL, CH, GN. subst ph sl.
        destruct e as [now|now got| |d| | |d|]; cbn [hstep upd] in S1; try discriminate.
        - destruct an; [discriminate|]. destruct g; [discriminate|]. cbn [orb] in S1. destruct (GN eq_refl) as (_ & AB).
          unfold send_beat in S1.
          destruct (Z.leb_spec (since_ms now rl) (to_int (Z.quot T 5))) as [L|L]; injection S1 as <-; unfold Inv3; cbn.
          + repeat split; try assumption; try lia. intros E. injection E as ->.
            destruct (Z.eq_dec nb 0) as [Z0|]; [|lia]. exfalso. rewrite (RL Z0) in L. unfold since_ms, ms in *.
            assert (0 <= T / 5 <= T) by (split; [apply Z.div_pos; lia|apply Z.div_le_upper_bound; lia]).
            rewrite Z.quot_div_nonneg in L by lia. rewrite (Z.quot_div_nonneg T) in L by lia.
            assert (T / 5 + 1 <= (t - a) / 1000000) by (apply Z.div_le_lower_bound; lia).
            assert ((t - a) / 1000000 < 2 ^ 31) by (apply Z.div_lt_upper_bound; lia).
            rewrite !to_int_id in L by lia. lia.
          + split; [|lia]. repeat split; try lia.
            * intros _. destruct (Z.eq_dec nb 0) as [Z0|].
              -- inversion AB as [|x r E F]; subst; [exists []; reflexivity|]. unfold is_beat in E. subst x. eexists; reflexivity.
              -- destruct CH as (r & ->); [lia|]. eexists; reflexivity.
            * apply Forall_app. split; [exact AB|]. repeat constructor.
        - destruct (got <=? zlen ch); [|discriminate]. injection S1 as S1. unfold read_beats in S1.
          pose proof (R now got (or_introl eq_refl)) as W1.
          destruct (int_ok (T * 10)); [|discriminate S1].
          destruct (Z.leb_spec (since_ms now b) (T * 10)) as [L|L].
          + cbn [obind] in S1. injection S1 as <-. unfold Inv3; cbn. repeat split; try assumption; try lia; try (apply GN; assumption); discriminate.
          + exfalso. unfold since_ms, ms in *. rewrite Z.quot_div_nonneg in L by lia.
            assert ((now - b) / 1000000 <= T * 10) by (apply Z.div_le_upper_bound; lia).
            assert (0 <= (now - b) / 1000000) by (apply Z.div_pos; lia).
            rewrite to_int_id in L by lia. lia.
        - elim N1. left. reflexivity.
        - destruct an; [discriminate|]. destruct g; [discriminate|]. cbn [orb] in S1. injection S1 as <-. unfold Inv3; cbn.
          split; [|split; [lia|discriminate]]. repeat split; try assumption; try discriminate.
          intros NB. destruct (CH NB) as (r & ->). eexists; reflexivity.
        - elim N2. left. reflexivity. }
      destruct ST as (I1 & LE & E1). destruct (IH c1 c2 I1 Q (fun now got Z => R now got (or_intror Z)) H) as (I2 & LE2 & E2).
      split; [exact I2|]. split; [lia|]. intros [->|Z]; [specialize (E1 eq_refl); lia|exact (E2 Z)]. }
  assert (I0 : Inv3 a b (conn_new a b)).
  { unfold Inv3, conn_new; cbn. repeat split; try lia. constructor. }
  destruct (X l _ _ I0 Q R H1) as ((P & _ & _ & _ & CH & _) & _ & BT). specialize (BT J). destruct (CH BT) as (r & E).
  destruct c1 as [ph an g ch rl sl nb rs tk]. cbn in P, E. subst ph ch. cbn in H. injection H as <-. reflexivity.
Qed.

(** Data. *)
Lemma data_sent turns : forall buf, send_data buf turns = concat (map snd turns).
Proof.
  induction turns as [|[hb d] r IH]; intros buf; [reflexivity|]. cbn [send_data map snd concat]. rewrite IH. f_equal.
  unfold into at 1. rewrite firstn_app, Nat.sub_diag, firstn_all. cbn. apply app_nil_r.
Qed.

(** Times. *)
Lemma beats_apart timeout : 0 <= timeout < 2 ^ 31 -> forall nows last, neighbours Z.le (last :: nows) ->
  neighbours (fun u v => ms (timeout / 5 + 1) <= v - u) (last :: beat_times true timeout last nows).
Proof.
  intros T. induction nows as [|n r IH]; intros last S; [exact I|]. destruct S as (L & S).
  cbn [beat_times]. unfold send_beat. destruct (Z.leb_spec (since_ms n last) (to_int (Z.quot timeout 5))) as [D|D].
  - apply IH. destruct r as [|m r]; [exact I|]. destruct S as (L2 & S). split; [lia|exact S].
  - cbn [neighbours]. split; [|apply IH; exact S].
    unfold since_ms, ms in *. rewrite (Z.quot_div_nonneg (n - last)) in D by lia. rewrite (Z.quot_div_nonneg timeout) in D by lia.
    assert (0 <= timeout / 5 <= timeout) by (split; [apply Z.div_pos; lia|apply Z.div_le_upper_bound; lia]).
    rewrite (to_int_id (timeout / 5)) in D by lia.
    assert (Q0 : 0 <= (n - last) / 1000000) by (apply Z.div_pos; lia).
    assert (TI : to_int ((n - last) / 1000000) <= (n - last) / 1000000).
    { unfold to_int. set (x := (n - last) / 1000000) in *. clearbody x. 
      destruct (Z_lt_le_dec x (2 ^ 31)); [rewrite Z.mod_small by lia; lia|].
      pose proof (Z.mod_pos_bound (x + 2 ^ 31) (2 ^ 32)). lia. }
    assert (timeout / 5 + 1 <= (n - last) / 1000000) by lia.
    pose proof (Z.mul_div_le (n - last) 1000000). nia.
Qed.

Lemma neighbours_tail rel a l : neighbours rel (a :: l) -> neighbours rel l.
Proof. destruct l; [intros _; exact I|]. intros (_ & N). exact N. Qed.
Lemma neighbours_le_head l : forall a x, neighbours Z.le (a :: l) -> In x l -> a <= x.
Proof.
  induction l as [|b l IH]; intros a x N J; [contradiction|]. destruct N as (L & N). destruct J as [->|J]; [exact L|].
  specialize (IH b x N J). lia.
Qed.

Lemma last_cons {A} (r : list A) : forall n b, List.last (n :: r) b = List.last r n.
Proof.
  induction r as [|m r IH]; intros n b; [reflexivity|].
  change (List.last (n :: m :: r) b) with (List.last (m :: r) b). rewrite (IH m b), (IH m n). reflexivity.
Qed.

(** Heart beats are not too far apart: [p] is the call before. *)
Lemma beats_close_from timeout D : 0 <= timeout < 2 ^ 31 -> 0 <= D -> ms (timeout / 5 + 1) + D < ms (2 ^ 31) ->
  forall nows last p, last <= p -> p - last < ms (timeout / 5 + 1) ->
  neighbours (fun u v => u <= v <= u + D) (p :: nows) ->
  neighbours (fun u v => v - u < ms (timeout / 5 + 1) + D) (last :: beat_times true timeout last nows) /\
  (exists z, z = List.last (beat_times true timeout last nows) last /\ z <= List.last nows p /\
             List.last nows p - z < ms (timeout / 5 + 1)).
Proof.
  intros T DP W. induction nows as [|n r IH]; intros last p LP PL S.
  - cbn. split; [exact I|]. exists last. repeat split; assumption.
  - destruct S as (L & S). cbn [beat_times]. unfold send_beat.
    rewrite (last_cons r n p).
    assert (0 <= timeout / 5 <= timeout) by (split; [apply Z.div_pos; lia|apply Z.div_le_upper_bound; lia]).
    destruct (Z.leb_spec (since_ms n last) (to_int (Z.quot timeout 5))) as [E|E].
    + apply IH; [lia| |exact S].
      unfold since_ms, ms in *. rewrite (Z.quot_div_nonneg (n - last)) in E by lia. rewrite (Z.quot_div_nonneg timeout) in E by lia.
      rewrite (to_int_id (timeout / 5)) in E by lia.
      assert ((n - last) / 1000000 < 2 ^ 31) by (apply Z.div_lt_upper_bound; lia).
      assert (0 <= (n - last) / 1000000) by (apply Z.div_pos; lia).
      rewrite to_int_id in E by lia. pose proof (Z.mod_pos_bound (n - last) 1000000). pose proof (Z.div_mod (n - last) 1000000). lia.
    + destruct (IH n n) as (A & z & Z1 & Z2 & Z3); [lia|unfold ms; lia|exact S|].
      split.
      * split; [unfold ms in *; lia|exact A].
      * exists z. split; [|split; assumption]. rewrite Z1.
        symmetry. apply last_cons.
Qed.

Lemma beats_close timeout D nows start : 0 <= timeout < 2 ^ 31 -> 0 <= D -> ms (timeout / 5 + 1) + D < ms (2 ^ 31) ->
  neighbours (fun u v => u <= v <= u + D) (start :: nows) ->
  let sentt := start :: beat_times true timeout start nows in
  neighbours (fun u v => v - u < ms (timeout / 5 + 1) + D) sentt /\
  List.last nows start - List.last sentt start < ms (timeout / 5 + 1).
Proof.
  intros T DP W S sentt.
  assert (0 <= timeout / 5) by (apply Z.div_pos; lia).
  destruct (beats_close_from timeout D T DP W nows start start) as (A & z & Z1 & Z2 & Z3); [lia|unfold ms; lia|exact S|].
  split; [exact A|]. unfold sentt.
  replace (List.last (start :: beat_times true timeout start nows) start) with z; [exact Z3|].
  rewrite Z1. destruct (beat_times true timeout start nows); reflexivity.
Qed.

(** Reads of heart beats. *)
Lemma reads_apart T : 0 <= T -> int_ok (T * 10) = true -> forall nows last, neighbours Z.le (last :: nows) ->
  neighbours (fun u v => ms (T * 10 + 1) <= v - u) (last :: read_times T last nows).
Proof.
  intros TP IO. induction nows as [|n r IH]; intros last S; [exact I|]. destruct S as (L & S).
  cbn [read_times]. unfold read_beats. rewrite IO.
  destruct (Z.leb_spec (since_ms n last) (T * 10)) as [D|D].
  - rewrite Z.eqb_refl. apply IH. destruct r as [|m r]; [exact I|]. destruct S as (L2 & S). split; [lia|exact S].
  - cbn [Z.leb Z.compare].
    assert (G : ms (T * 10 + 1) <= n - last).
    { unfold since_ms, ms in *. rewrite (Z.quot_div_nonneg (n - last)) in D by lia.
      assert (TI : to_int ((n - last) / 1000000) <= (n - last) / 1000000).
      { assert (0 <= (n - last) / 1000000) by (apply Z.div_pos; lia).
        unfold to_int. set (x := (n - last) / 1000000) in *. clearbody x.
        destruct (Z_lt_le_dec x (2 ^ 31)); [rewrite Z.mod_small by lia; lia|].
        pose proof (Z.mod_pos_bound (x + 2 ^ 31) (2 ^ 32)). lia. }
      pose proof (Z.mul_div_le (n - last) 1000000). nia. }
    destruct (Z.eqb_spec n last); [unfold ms in G; lia|]. split; [exact G|]. apply IH. exact S.
Qed.
Lemma apart_count g l : forall a, 0 <= g -> neighbours (fun u v => g <= v - u) (a :: l) -> g * zlen l <= List.last l a - a.
Proof.
  induction l as [|b l IH]; intros a G N; [unfold zlen; cbn; lia|]. destruct N as (L & N).
  specialize (IH b G N). replace (List.last (b :: l) a) with (List.last l b).
  - unfold zlen in *. cbn [length]. lia.
  - symmetry. apply last_cons.
Qed.
Lemma read_times_in T nows : forall last x, In x (read_times T last nows) -> In x nows.
Proof.
  induction nows as [|n r IH]; intros last x J; [contradiction|]. cbn [read_times] in J.
  destruct (read_beats true T last n 0 []) as [[[? l'] ?]| |]; try contradiction.
  destruct (l' =? last); [right; exact (IH _ _ J)|]. destruct J as [->|J]; [left; reflexivity|right; exact (IH _ _ J)].
Qed.
Lemma last_in {A} (l : list A) a : l <> [] -> In (List.last l a) l.
Proof.
  induction l as [|b l IH]; [contradiction|]. intros _. cbn [List.last]. destruct l as [|c l]; [left; reflexivity|].
  right. apply IH. discriminate.
Qed.
Lemma reads_few T nows start stop : 0 <= T -> int_ok (T * 10) = true -> neighbours Z.le (start :: nows) ->
  start <= stop -> (forall x, In x nows -> x <= stop) ->
  neighbours (fun u v => ms (T * 10 + 1) <= v - u) (start :: read_times T start nows) /\
  10 * (ms T * zlen (read_times T start nows)) <= stop - start.
Proof.
  intros TP IO S LE U. pose proof (reads_apart T TP IO nows start S) as A. split; [exact A|].
  pose proof (apart_count (ms (T * 10 + 1)) _ start ltac:(unfold ms; lia) A) as C.
  assert (LS : List.last (read_times T start nows) start <= stop).
  { destruct (read_times T start nows) as [|x l] eqn:E; [exact LE|]. apply U. apply (read_times_in T nows start).
    rewrite E. apply last_in. discriminate. }
  unfold ms in *. pose proof (Zle_0_nat (length (read_times T start nows))) as ZP. unfold zlen in *. nia.
Qed.

Lemma off_silent T a b l c : hrun false T (conn_new a b) l = Some (Ret c) -> cn_beats c = 0.
Proof.
  assert (X : forall l c0 c1, hrun false T c0 l = Some (Ret c1) -> cn_beats c1 = cn_beats c0).
  { clear. induction l as [|e l IH]; intros c0 c2 H; [injection H as <-; reflexivity|]. cbn [hrun] in H.
    destruct (hstep false T c0 e) as [[c1| |]|] eqn:S1; try discriminate. rewrite (IH _ _ H). clear - S1.
    destruct c0 as [ph an g ch rl sl nb rs tk].
    destruct e; cbn [hstep upd send_beat read_beats obind] in S1;
      repeat match goal with
             | X : context [match ?x with _ => _ end] |- _ => destruct x; try discriminate
             end; try discriminate; injection S1 as <-; reflexivity. }
  intros H. rewrite (X _ _ _ H). reflexivity.
Qed.
Lemma read_defined T last now got inp : int_ok (T * 10) = true ->
  exists r, read_beats true T last now got inp = Ret r.
Proof.
  intros E. unfold read_beats. rewrite E. destruct (_ <=? _); [eexists; reflexivity|]. destruct (_ <=? _); eexists; reflexivity.
Qed.
Lemma off_none T a b l c version opt : version < 29 \/ opt = false ->
  hrun (sender_beats version opt) T (conn_new a b) l = Some (Ret c) -> cn_beats c = 0.
Proof.
  intros V. replace (sender_beats version opt) with false; [apply off_silent|].
  unfold sender_beats, HEART_BEAT_VERSION. destruct V as [V|V]; [|rewrite V, andb_false_r; reflexivity].
  destruct (Z.leb_spec 29 version); [lia|reflexivity].
Qed.
Lemma read_defined_below T last now got inp : 0 <= T <= 214748364 -> exists r, read_beats true T last now got inp = Ret r.
Proof.
  intros B. apply read_defined. unfold int_ok. apply andb_true_iff. split; [apply Z.leb_le|apply Z.ltb_lt]; lia.
Qed.

Lemma abort_hidden : exists l c d, quiet l /\ In (EAbort d) l /\
  hrun true 5000 (conn_new 0 0) (l ++ [ECheck]) = Some (Ret c) /\ cn_ph c = PChecked false.
Proof.
  exists [EBeat 2000000000; EAbort [31; 0; 0; 0; 20; 0; 0; 0; 0; 0; 0; 0; 0]].
  eexists. exists [31; 0; 0; 0; 20; 0; 0; 0; 0; 0; 0; 0; 0].
  split; [split; intros J; repeat (destruct J as [J|J]; [discriminate|]); contradiction|].
  split; [right; left; reflexivity|]. split; [vm_compute; reflexivity|reflexivity].
Qed.
Lemma abort_swallowed : exists l c d, quiet l /\ In (EAbort d) l /\ cn_beats c = 0 /\
  hrun true 5000 (conn_new 0 0) (l ++ [ECheck]) = Some (Ret c) /\ cn_ph c = PChecked false /\ cn_results c = [PROTOCOL_ERROR].
Proof.
  exists [EAbort [31; 0; 0; 0; 20; 0; 0; 0; 0; 0; 0; 0; 0]; ERead 60000000000 14].
  refine (ex_intro _ {| cn_ph := PChecked false; cn_answered := false; cn_gone := true; cn_chan := []; cn_rlast := 0;
    cn_slast := 60000000000; cn_beats := 0; cn_results := [PROTOCOL_ERROR]; cn_taken := [] |} _).
  exists [31; 0; 0; 0; 20; 0; 0; 0; 0; 0; 0; 0; 0].
  split; [split; intros J; repeat (destruct J as [J|J]; [discriminate|]); contradiction|].
  split; [left; reflexivity|]. split; [reflexivity|]. split; [vm_compute; reflexivity|]. split; reflexivity.
Qed.
