(** The throttle: the system of threads. *)
From Coq Require Import Lqa Lia.
From Verif Require Export Spec.ThrottlerSpec.
From Verif Require Import Proofs.SumFacts Proofs.QueueMonitorFacts Proofs.HistoryFacts.

Lemma Qle_b a b : Qle_bool a b = true -> (a <= b)%Q.
Proof. apply Qle_bool_iff. Qed.
Lemma Qle_b' a b : Qle_bool a b = false -> (b < a)%Q.
Proof. intros H. apply Qnot_le_lt. intros L. apply Qle_bool_iff in L. congruence. Qed.
Lemma Qlt_b a b : Qltb a b = true -> (a < b)%Q.
Proof. unfold Qltb. intros H. apply Qle_b'. destruct (Qle_bool b a); [discriminate|reflexivity]. Qed.
Lemma Qlt_b' a b : Qltb a b = false -> (b <= a)%Q.
Proof. unfold Qltb. intros H. apply Qle_b. destruct (Qle_bool b a); [reflexivity|discriminate]. Qed.
Lemma Qle_b_true a b : (a <= b)%Q -> Qle_bool a b = true.
Proof. apply Qle_bool_iff. Qed.
Lemma Qle_b_false a b : (b < a)%Q -> Qle_bool a b = false.
Proof. intros H. destruct (Qle_bool a b) eqn:E; [|reflexivity]. apply Qle_b in E. lra. Qed.

(** What of an entry is fixed when it is made. *)
Definition core (c : charge) : Z * Q * Z := (ch_bytes c, ch_now c, ch_bucket c).
Definition c_bytes (x : Z * Q * Z) : Z := fst (fst x).
Definition upto (t : Q) (log : list charge) : Z :=
  zsum (fun c => match ch_end c with Some e => if Qle_bool e t then ch_bytes c else 0 | None => 0 end) log.
Definition num_of (x : tkst) : Z :=
  match x with TkIdle => 0 | TkNext _ n => n | TkCalc _ n _ => n | TkSleep _ n _ _ => n end.
Definition partial (clock t : Q) (ths : list tkst) : Z :=
  zsum (fun x => if Qle_bool clock t then num_of x else 0) ths.

Section System.
(** [R l k t]: entry [k] of [l] may return at [t]; [T]: the throttler fits its log. *)
Context (t0 : Q) (T : throttler -> list (Z * Q * Z) -> Prop) (R : list (Z * Q * Z) -> nat -> Q -> Prop).
Context (R_app : forall l l' k t, (k < length l)%nat -> R l k t -> R (l ++ l') k t).
Context (R_mono : forall l k t u, (t <= u)%Q -> R l k t -> R l k u).
Context (T_refs : forall th l n, T th l -> T (with_refs th n) l).
Context (T_calc : forall th l d now, T th l -> 0 < th_refs th -> 0 <= d -> (t0 <= now)%Q ->
  let '(th', sleep) := calculateSleep th d now in
  let l' := l ++ [(d, now, th_bucket th')] in
  T th' l' /\ R l' (length l) now \/ T th' l' /\ (0 < sleep)%Q /\ R l' (length l) (now + sleep)%Q).

Definition okst (clock : Q) (log : list charge) (x : tkst) : Prop :=
  match x with
  | TkIdle => True
  | TkNext total num => 0 <= num <= Z.max 0 total
  | TkCalc total num now => 0 <= num < total /\ (t0 <= now <= clock)%Q
  | TkSleep total num k wake => 0 <= num /\ exists c, nth_error log k = Some c /\ ch_end c = None /\
      num + ch_bytes c <= total /\ R (map core log) k wake
  end.
Record GInv (s : tksys) : Prop := {
  g_clock : (t0 <= tk_clock s)%Q;
  g_refs : 0 < th_refs (tk_th s);
  g_single : 0 < th_single (tk_th s);
  g_th : T (tk_th s) (map core (tk_log s));
  g_bytes : forall c, In c (tk_log s) -> 0 <= ch_bytes c;
  g_threads : forall i x, nth_error (tk_threads s) i = Some x -> okst (tk_clock s) (tk_log s) x;
  g_apart : forall i j a b k w a' b' w', nth_error (tk_threads s) i = Some (TkSleep a b k w) ->
    nth_error (tk_threads s) j = Some (TkSleep a' b' k w') -> i = j;
  g_done : forall k c e, nth_error (tk_log s) k = Some c -> ch_end c = Some e ->
    (t0 <= e <= tk_clock s)%Q /\ R (map core (tk_log s)) k e;
  g_account : forall t, returned t (tk_calls s) + partial (tk_clock s) t (tk_threads s) <= upto t (tk_log s)
}.

Lemma okst_clock c c' log x : (c <= c')%Q -> okst c log x -> okst c' log x.
Proof. intros H. destruct x; cbn; auto. intros (A & B). split; [exact A|]. lra. Qed.
Lemma okst_app c log e x : okst c log x -> okst c (log ++ [e]) x.
Proof.
  destruct x as [| | |total num k wake]; cbn; auto. intros (A & y & B & C & D & E). split; [exact A|]. exists y.
  assert (k < length log)%nat by (apply nth_error_Some; congruence).
  rewrite nth_error_app1 by lia. repeat (split; [assumption|]).
  rewrite map_app. apply R_app; [rewrite map_length; lia|exact E].
Qed.
Lemma core_set log k y t : nth_error log k = Some y -> map core (set_nth log k (ch_return y t)) = map core log.
Proof.
  revert k. induction log as [|a log IH]; intros [|k] H; cbn in *; try discriminate.
  - injection H as ->. reflexivity.
  - f_equal. apply IH, H.
Qed.
Lemma core_nth log k c : nth_error log k = Some c -> nth_error (map core log) k = Some (core c).
Proof. intros H. rewrite nth_error_map, H. reflexivity. Qed.
Lemma calc_refs th d now : th_refs (fst (calculateSleep th d now)) = th_refs th /\
  th_single (fst (calculateSleep th d now)) = th_single th.
Proof.
  unfold calculateSleep. destruct (th_refs th <=? 0); [auto|]. cbv zeta.
  destruct (Qltb 0 (averageThrottler _ now)); [auto|].
  destruct (_ && _)%bool; auto.
Qed.
Lemma partial_set c t ths i x y : nth_error ths i = Some x ->
  partial c t (set_nth ths i y) = partial c t ths - (if Qle_bool c t then num_of x else 0) + (if Qle_bool c t then num_of y else 0).
Proof.
  intros H. unfold partial.
  pose proof (zsum_set (fun x => if Qle_bool c t then num_of x else 0) ths i x y H). cbv beta in *. lia.
Qed.
Lemma partial_later c c' t ths : (c <= c')%Q -> (forall x, In x ths -> 0 <= num_of x) ->
  partial c' t ths <= partial c t ths.
Proof.
  intros H Hn. unfold partial. induction ths as [|x ths IH]; cbn [zsum]; [lia|].
  assert (0 <= num_of x) by (apply Hn; left; reflexivity).
  assert (Hr : forall y, In y ths -> 0 <= num_of y) by (intros; apply Hn; right; assumption). specialize (IH Hr).
  destruct (Qle_bool c' t) eqn:E, (Qle_bool c t) eqn:E2; try lia.
  apply Qle_b in E. apply Qle_b' in E2. lra.
Qed.
Lemma num_nonneg s : GInv s -> forall x, In x (tk_threads s) -> 0 <= num_of x.
Proof. clear R_app R_mono T_refs T_calc.
  intros G x Hx. apply In_nth_error in Hx. destruct Hx as (i & Hx). apply (g_threads _ G) in Hx.
  destruct x; cbn in *; lia.
Qed.

Lemma GInv_step s e s' : GInv s -> tk_step s e = Some s' -> GInv s'.
Proof.
  intros G H. pose proof G as [Gc Gr Gs Gt Gb Gth Ga Gd Gac]. destruct e as [d|i n|i|i|i| |]; cbn [tk_step] in H.
  - destruct (Qle_bool 0 d) eqn:Ed; [|discriminate]. apply Qle_b in Ed. injection H as <-.
    constructor; cbn [tk_th tk_clock tk_threads tk_log tk_calls]; auto.
    + lra.
    + intros i x Hx. apply (okst_clock (tk_clock s)); [lra|]. eapply Gth, Hx.
    + intros k c e H1 H2. destruct (Gd k c e H1 H2) as (A & B). split; [lra|exact B].
    + intros t. specialize (Gac t).
      pose proof (partial_later (tk_clock s) (tk_clock s + d)%Q t (tk_threads s) ltac:(lra) (num_nonneg s G)). lia.
  - destruct (nth_error (tk_threads s) i) as [x|] eqn:Ei; [|discriminate].
    destruct x; try discriminate. injection H as <-.
    constructor; cbn [tk_set tk_th tk_clock tk_threads tk_log tk_calls]; auto.
    + intros j y Hy. apply nth_set_cases in Hy. destruct Hy as [(_ & ->)|(_ & Hy)]; [cbn; lia|eapply Gth, Hy].
    + intros j j' a b k w a' b' w' H1 H2. apply nth_set_cases in H1, H2.
      destruct H1 as [(_ & H1)|(_ & H1)]; [discriminate|]. destruct H2 as [(_ & H2)|(_ & H2)]; [discriminate|].
      eapply Ga; eassumption.
    + intros t. specialize (Gac t). rewrite (partial_set _ _ _ _ _ _ Ei). cbn [num_of].
      destruct (Qle_bool (tk_clock s) t); lia.
  - destruct (nth_error (tk_threads s) i) as [x|] eqn:Ei; [|discriminate].
    destruct x as [|total num| |]; try discriminate.
    pose proof (Gth _ _ Ei) as Ok. cbn in Ok.
    destruct (Z.ltb_spec num total).
    + injection H as <-. constructor; cbn [tk_set tk_th tk_clock tk_threads tk_log tk_calls]; auto.
      * intros j y Hy. apply nth_set_cases in Hy. destruct Hy as [(_ & ->)|(_ & Hy)]; [cbn; split; [lia|lra]|eapply Gth, Hy].
      * intros j j' a b k w a' b' w' H1 H2. apply nth_set_cases in H1, H2.
        destruct H1 as [(_ & H1)|(_ & H1)]; [discriminate|]. destruct H2 as [(_ & H2)|(_ & H2)]; [discriminate|].
        eapply Ga; eassumption.
      * intros t. specialize (Gac t). rewrite (partial_set _ _ _ _ _ _ Ei). cbn [num_of]. lia.
    + injection H as <-. constructor; cbn [tk_th tk_clock tk_threads tk_log tk_calls]; auto.
      * intros j y Hy. apply nth_set_cases in Hy. destruct Hy as [(_ & ->)|(_ & Hy)]; [exact I|eapply Gth, Hy].
      * intros j j' a b k w a' b' w' H1 H2. apply nth_set_cases in H1, H2.
        destruct H1 as [(_ & H1)|(_ & H1)]; [discriminate|]. destruct H2 as [(_ & H2)|(_ & H2)]; [discriminate|].
        eapply Ga; eassumption.
      * intros t. specialize (Gac t). rewrite (partial_set _ _ _ _ _ _ Ei). cbn [num_of].
        unfold returned in *. rewrite zsum_app. cbn [zsum fst snd]. destruct (Qle_bool (tk_clock s) t); lia.
  - destruct (nth_error (tk_threads s) i) as [x|] eqn:Ei; [|discriminate].
    destruct x as [| |total num now|]; try discriminate.
    pose proof (Gth _ _ Ei) as (Ok & On). set (d := toThrottle (tk_th s) total num) in *.
    assert (Hd : 0 <= d <= total - num) by (unfold d, toThrottle; lia).
    pose proof (calc_refs (tk_th s) d now) as (Cr & Cs).
    pose proof (T_calc (tk_th s) (map core (tk_log s)) d now Gt Gr ltac:(lia) ltac:(lra)) as C.
    destruct (calculateSleep (tk_th s) d now) as (th' & sleep). cbn [fst] in Cr, Cs.
    cbv zeta in C. rewrite map_length in C.
    assert (Ct : T th' (map core (tk_log s) ++ [(d, now, th_bucket th')])) by (destruct C as [(C & _)|(C & _)]; exact C).
    assert (Cg : Qle_bool sleep 0 = true -> R (map core (tk_log s) ++ [(d, now, th_bucket th')]) (length (tk_log s)) (tk_clock s)).
    { intros E. apply Qle_b in E. destruct C as [(_ & C)|(_ & C & _)]; [|lra].
      apply (R_mono _ _ now); [lra|exact C]. }
    assert (Cw : Qle_bool sleep 0 = false -> R (map core (tk_log s) ++ [(d, now, th_bucket th')]) (length (tk_log s)) (tk_clock s + sleep)%Q).
    { intros E. apply Qle_b' in E. destruct C as [(_ & C)|(_ & _ & C)].
      - apply (R_mono _ _ now); [lra|exact C].
      - apply (R_mono _ _ (now + sleep)%Q); [lra|exact C]. }
    clear C. set (go := Qle_bool sleep 0) in *.
    set (e := {| ch_bytes := d; ch_now := now; ch_bucket := th_bucket th'; ch_end := if go then Some (tk_clock s) else None |}) in *.
    assert (Me : map core (tk_log s ++ [e]) = map core (tk_log s) ++ [(d, now, th_bucket th')]) by apply map_app.
    injection H as <-. constructor; cbn [tk_th tk_clock tk_threads tk_log tk_calls]; auto.
    + lia.
    + lia.
    + rewrite Me. exact Ct.
    + intros c Hc. apply in_app_or in Hc. destruct Hc as [Hc|[<-|[]]]; [apply Gb, Hc|exact (proj1 Hd)].
    + intros j y Hy. apply nth_set_cases in Hy. destruct Hy as [(_ & ->)|(_ & Hy)]; [|apply okst_app; eapply Gth, Hy].
      destruct go; cbn [okst]; [lia|]. split; [lia|]. exists e.
      split; [rewrite nth_error_app2, Nat.sub_diag by lia; reflexivity|]. split; [reflexivity|].
      split; [cbn [e ch_bytes]; lia|]. rewrite Me. apply Cw. reflexivity.
    + assert (Lt : forall j a b k w, nth_error (tk_threads s) j = Some (TkSleep a b k w) -> (k < length (tk_log s))%nat).
      { intros j a b k w Hj. apply Gth in Hj. destruct Hj as (_ & y & Hy & _). apply nth_error_Some. congruence. }
      intros j j' a b k w a' b' w' H1 H2. apply nth_set_cases in H1, H2.
      destruct go.
      * destruct H1 as [(_ & H1)|(_ & H1)]; [discriminate|]. destruct H2 as [(_ & H2)|(_ & H2)]; [discriminate|].
        eapply Ga; eassumption.
      * destruct H1 as [(E1 & H1)|(_ & H1)], H2 as [(E2 & H2)|(_ & H2)].
        -- congruence.
        -- injection H1 as -> -> -> ->. apply Lt in H2. lia.
        -- injection H2 as -> -> -> ->. apply Lt in H1. lia.
        -- eapply Ga; eassumption.
    + intros k c t H1 H2. destruct (Nat.ltb_spec k (length (tk_log s))).
      * rewrite nth_error_app1 in H1 by lia. destruct (Gd k c t H1 H2) as (A & B). split; [exact A|].
        rewrite Me. apply R_app; [rewrite map_length; lia|exact B].
      * rewrite nth_error_app2 in H1 by lia. destruct (k - length (tk_log s))%nat eqn:Ek; [|destruct n; discriminate].
        cbn in H1. injection H1 as <-. cbn [e ch_end] in H2. destruct go; [|discriminate]. injection H2 as <-.
        split; [lra|]. rewrite Me. replace k with (length (tk_log s)) by lia. apply Cg. reflexivity.
    + intros t. specialize (Gac t). rewrite (partial_set _ _ _ _ _ _ Ei). unfold upto in *. rewrite zsum_app.
      cbn [zsum e ch_end ch_bytes num_of].
      destruct go; cbn [num_of]; destruct (Qle_bool (tk_clock s) t); lia.
  - destruct (nth_error (tk_threads s) i) as [x|] eqn:Ei; [|discriminate].
    destruct x as [| | |total num k wake]; try discriminate.
    destruct (nth_error (tk_log s) k) as [c|] eqn:Ek; [|discriminate].
    destruct (Qle_bool wake (tk_clock s)) eqn:Ew; [|discriminate]. apply Qle_b in Ew.
    pose proof (Gth _ _ Ei) as (O1 & c' & O2 & O3 & O4 & O5). rewrite Ek in O2. injection O2 as <-.
    pose proof (Gb c (nth_error_In _ _ Ek)) as Cb.
    injection H as <-. constructor; cbn [tk_th tk_clock tk_threads tk_log tk_calls]; rewrite ?(core_set _ _ _ _ Ek); auto.
    + intros y Hy. apply in_set_nth in Hy. destruct Hy as [->|Hy]; [exact Cb|apply Gb, Hy].
    + intros j y Hy. apply nth_set_cases in Hy. destruct Hy as [(_ & ->)|(Hne & Hy)]; [cbn; lia|].
      pose proof (Gth _ _ Hy) as Oy. destruct y as [| | |total' num' k' wake']; cbn [okst] in *; auto.
      destruct Oy as (P1 & y & P2 & P3 & P4 & P5). split; [exact P1|].
      assert (Hk : k <> k') by (intros <-; apply Hne; eapply Ga; eassumption).
      exists y. rewrite nth_set_other by congruence. rewrite (core_set _ _ _ _ Ek). auto.
    + intros j j' a b k1 w a' b' w' H1 H2. apply nth_set_cases in H1, H2.
      destruct H1 as [(_ & H1)|(_ & H1)]; [discriminate|]. destruct H2 as [(_ & H2)|(_ & H2)]; [discriminate|].
      eapply Ga; eassumption.
    + intros k' y t H1 H2. apply nth_set_cases in H1. destruct H1 as [(<- & ->)|(Hne & H1)]; [|eapply Gd; eassumption].
      cbn [ch_return ch_end] in H2. injection H2 as <-. split; [lra|]. apply (R_mono _ _ wake); auto.
    + intros t. specialize (Gac t). rewrite (partial_set _ _ _ _ _ _ Ei). cbn [num_of].
      unfold upto in *. pose proof (zsum_set (fun c => match ch_end c with Some e => if Qle_bool e t then ch_bytes c else 0 | None => 0 end)
        (tk_log s) k c (ch_return c (tk_clock s)) Ek) as Z1. cbv beta in Z1. rewrite O3 in Z1. cbn [ch_return ch_end ch_bytes] in Z1.
      destruct (Qle_bool (tk_clock s) t); lia.
  - injection H as <-. unfold startTransfer. destruct (Z.eqb_spec (th_refs (tk_th s)) 0); [lia|].
    constructor; cbn [tk_th tk_clock tk_threads tk_log tk_calls with_refs th_refs th_single]; auto. lia.
  - destruct (Z.leb_spec (th_refs (tk_th s)) 1); [discriminate|]. unfold endTransfer in H.
    destruct (Z.leb_spec (th_refs (tk_th s)) 0); [discriminate|]. injection H as <-.
    constructor; cbn [tk_th tk_clock tk_threads tk_log tk_calls with_refs th_refs th_single]; auto. lia.
Qed.
Lemma GInv_run evs : forall s s', GInv s -> tk_run evs s = Some s' -> GInv s'.
Proof.
  induction evs as [|e evs IH]; intros s s' G H; cbn in H; [congruence|].
  destruct (tk_step s e) as [s1|] eqn:E; [|discriminate]. apply (IH s1 s'); [|exact H]. eapply GInv_step; eassumption.
Qed.
Lemma GInv_init th n : 0 < th_single th -> T (with_refs (resetState t0 th) 1) [] -> GInv (tk_init th t0 n).
Proof. clear R_app R_mono T_refs T_calc.
  intros Hs Ht. assert (Hr : forall i x, nth_error (repeat TkIdle n) i = Some x -> x = TkIdle).
  { intros i x H. apply nth_error_In in H. exact (repeat_spec _ _ _ H). }
  constructor; cbn [tk_init tk_th tk_clock tk_threads tk_log tk_calls]; auto.
  - lra.
  - reflexivity.
  - intros c [].
  - intros i x H. apply Hr in H. subst x. exact I.
  - intros i j a b k w a' b' w' H. apply Hr in H. discriminate.
  - intros [|k] c e H; discriminate.
  - intros t. unfold returned, partial, upto. rewrite zsum_repeat. cbn [zsum num_of]. destruct (Qle_bool t0 t); lia.
Qed.
End System.
