(** The two rate limits. *)
From Coq Require Import Lqa Lia.
From Verif Require Export Proofs.ThrottlerFacts.
From Verif Require Import Proofs.SumFacts Proofs.QueueMonitorFacts.

(** ---- The average rate ---- *)
Definition sum_bytes (l : list (Z * Q * Z)) : Q := inject_Z (zsum c_bytes l).
Definition Tavg (t0 avg : Q) (th : throttler) (l : list (Z * Q * Z)) : Prop :=
  th_start th = t0 /\ th_avg th = avg /\ (th_progress th == sum_bytes l)%Q.
Definition Ravg (t0 avg : Q) (l : list (Z * Q * Z)) (k : nat) (t : Q) : Prop :=
  (sum_bytes (firstn (S k) l) <= avg * (t - t0))%Q.
Lemma Qmult_mono a b c : (0 <= a)%Q -> (b <= c)%Q -> (a * b <= a * c)%Q.
Proof. intros. rewrite (Qmult_comm a b), (Qmult_comm a c). apply Qmult_le_compat_r; assumption. Qed.
Lemma Qdiv_back a b : (0 < b)%Q -> (b * (a / b) == a)%Q.
Proof. intros H. field. lra. Qed.

Lemma Tavg_calc t0 avg : (0 < avg)%Q -> forall th l d now,
  Tavg t0 avg th l -> (0 < th_refs th)%Z -> (0 <= d)%Z -> (t0 <= now)%Q ->
  let '(th', sleep) := calculateSleep th d now in
  let l' := l ++ [(d, now, th_bucket th')] in
  Tavg t0 avg th' l' /\ Ravg t0 avg l' (length l) now \/
  Tavg t0 avg th' l' /\ (0 < sleep)%Q /\ Ravg t0 avg l' (length l) (now + sleep)%Q.
Proof.
  intros Ha th l d now (T1 & T2 & T3) Hr Hd Hn. unfold calculateSleep.
  destruct (Z.leb_spec (th_refs th) 0); [lia|]. cbv zeta.
  set (t1 := with_progress th (th_progress th + inject_Z d)%Q).
  assert (A : forall b, sum_bytes (firstn (S (length l)) (l ++ [(d, now, b)])) = sum_bytes (l ++ [(d, now, b)])).
  { intros b. rewrite firstn_all2; [reflexivity|]. rewrite app_length. cbn. lia. }
  assert (B : forall b, (sum_bytes (l ++ [(d, now, b)]) == th_progress t1)%Q).
  { intros b. unfold sum_bytes. rewrite zsum_app, inject_Z_plus. cbn [zsum c_bytes fst t1 with_progress th_progress].
    rewrite Z.add_0_r, T3. unfold sum_bytes. reflexivity. }
  set (p := (th_progress th + inject_Z d)%Q) in *.
  assert (Av : averageThrottler t1 now = if Qltb (avg * (now - t0)) p then (p / avg - (now - t0))%Q else (-1)%Q).
  { unfold averageThrottler, t1. cbn [with_progress th_avg th_start th_progress]. rewrite T1, T2.
    rewrite (Qle_b_false avg 0) by exact Ha. reflexivity. }
  rewrite Av. change (th_progress t1) with p in B.
  destruct (Qltb (avg * (now - t0)) p) eqn:E1.
  - apply Qlt_b in E1.
    assert (Sp : (0 < p / avg - (now - t0))%Q).
    { assert ((p / avg - (now - t0)) == (p - avg * (now - t0)) / avg)%Q as -> by (field; lra).
      apply Qlt_shift_div_l; lra. }
    assert (E2 : Qltb 0 (p / avg - (now - t0)) = true) by (unfold Qltb; rewrite Qle_b_false by exact Sp; reflexivity).
    rewrite E2. right. split; [|split; [exact Sp|]].
    + split; [exact T1|]. split; [exact T2|]. rewrite B. reflexivity.
    + unfold Ravg. rewrite A, B.
      assert ((avg * (now + (p / avg - (now - t0)) - t0) == p)%Q) as -> by (field; lra).
      apply Qle_refl.
  - apply Qlt_b' in E1. change (Qltb 0 (-1)) with false. cbv iota.
    assert (Rn : forall b, Ravg t0 avg (l ++ [(d, now, b)]) (length l) now).
    { intros b. unfold Ravg. rewrite A, B. exact E1. }
    destruct (_ && _)%bool; left; (split; [|apply Rn]); (split; [exact T1|]); (split; [exact T2|]);
      rewrite B; reflexivity.
Qed.

Lemma upto_le t0 avg t log : (0 < avg)%Q -> (t0 <= t)%Q -> (forall c, In c log -> 0 <= ch_bytes c)%Z ->
  (forall k c e, nth_error log k = Some c -> ch_end c = Some e -> Ravg t0 avg (map core log) k e) ->
  (inject_Z (upto t log) <= avg * (t - t0))%Q.
Proof.
  intros Ha Ht. induction log as [|c log IH] using rev_ind; intros Hb Hd.
  - change (inject_Z (upto t [])) with 0%Q.
    pose proof (Qmult_mono avg 0 (t - t0) ltac:(lra) ltac:(lra)). lra.
  - unfold upto. rewrite zsum_app. cbn [zsum]. fold (upto t log).
    assert (Hb' : forall c, In c log -> (0 <= ch_bytes c)%Z) by (intros; apply Hb, in_or_app; auto).
    assert (IH' : (inject_Z (upto t log) <= avg * (t - t0))%Q).
    { apply IH; [exact Hb'|]. intros k x e H1 H2.
      assert (k < length log)%nat by (apply nth_error_Some; congruence).
      specialize (Hd k x e). rewrite nth_error_app1 in Hd by lia. specialize (Hd H1 H2).
      unfold Ravg in *. rewrite map_app, firstn_app, map_length in Hd.
      replace (S k - length log)%nat with O in Hd by lia. rewrite firstn_O, app_nil_r in Hd. exact Hd. }
    assert (Z0 : forall x, (x + (0 + 0) = x)%Z) by (intros; lia).
    destruct (ch_end c) as [e|] eqn:Ee; [|rewrite Z0; exact IH'].
    destruct (Qle_bool e t) eqn:El; [|rewrite Z0; exact IH'].
    apply Qle_b in El. specialize (Hd (length log) c e).
    rewrite nth_error_app2, Nat.sub_diag in Hd by lia. specialize (Hd eq_refl Ee). unfold Ravg in Hd.
    rewrite firstn_all2 in Hd by (rewrite map_length, app_length; cbn; lia).
    pose proof (Qmult_mono avg (e - t0) (t - t0) ltac:(lra) ltac:(lra)).
    assert (M : (upto t log + (ch_bytes c + 0) <= zsum c_bytes (map core (log ++ [c])))%Z).
    { rewrite zsum_map. change (upto t log + (ch_bytes c + 0) <= zsum ch_bytes (log ++ [c]))%Z.
      rewrite zsum_app. cbn [zsum].
      assert (upto t log <= zsum ch_bytes log)%Z; [|lia].
      clear - Hb'. unfold upto. induction log as [|x log IH]; cbn [zsum]; [lia|].
      assert (0 <= ch_bytes x)%Z by (apply Hb'; left; reflexivity).
      assert (forall c, In c log -> 0 <= ch_bytes c)%Z by (intros; apply Hb'; right; assumption).
      specialize (IH H0). destruct (ch_end x) as [e|]; [destruct (Qle_bool e t)|]; lia. }
    rewrite Zle_Qle in M. unfold sum_bytes in Hd. lra.
Qed.
Lemma average_rate th now n evs s t : (0 < th_avg th)%Q -> (0 < th_single th)%Z -> (now <= t)%Q ->
  tk_run evs (tk_init th now n) = Some s ->
  (inject_Z (returned t (tk_calls s)) <= th_avg th * (t - now))%Q.
Proof.
  intros Ha Hs Ht H.
  assert (G : GInv now (Tavg now (th_avg th)) (Ravg now (th_avg th)) s).
  { eapply GInv_run; [| | | |apply GInv_init|exact H].
    - intros l l' k u Hk HR. unfold Ravg in *. rewrite firstn_app. replace (S k - length l)%nat with O by lia.
      rewrite firstn_O, app_nil_r. exact HR.
    - intros l k u w Hu HR. unfold Ravg in *.
      pose proof (Qmult_mono (th_avg th) (u - now) (w - now) ltac:(lra) ltac:(lra)). lra.
    - intros th' l m (A & B & C). split; [exact A|]. split; [exact B|exact C].
    - exact (Tavg_calc now (th_avg th) Ha).
    - exact Hs.
    - split; [reflexivity|]. split; [reflexivity|]. reflexivity. }
  pose proof (g_account _ _ _ _ G t) as A.
  assert (P : (0 <= partial (tk_clock s) t (tk_threads s))%Z).
  { apply zsum_nonneg. intros x Hx. pose proof (num_nonneg _ _ _ _ G x Hx). destruct (Qle_bool (tk_clock s) t); lia. }
  pose proof (upto_le now (th_avg th) t (tk_log s) Ha Ht (g_bytes _ _ _ _ G)
    (fun k c e H1 H2 => proj2 (g_done _ _ _ _ G k c e H1 H2))) as U.
  assert (M : (returned t (tk_calls s) <= upto t (tk_log s))%Z) by lia. rewrite Zle_Qle in M. lra.
Qed.

(** ---- The peak rate ---- *)
Definition prev (t0 : Q) (l : list (Z * Q * Z)) (k : nat) : Z * Q :=
  match k with
  | O => (0%Z, t0)
  | S j => match nth_error l j with Some x => (snd x, snd (fst x)) | None => (0%Z, t0) end
  end.
Definition link (rate lim : Q) (p : Z * Q) (y : Z * Q * Z) : Prop :=
  let b := inject_Z (snd y + c_bytes y) in
  let fill := (inject_Z (fst p) + (snd (fst y) - snd p) * rate)%Q in
  (b <= lim /\ b < fill + 1 /\ ((exists n, (snd (fst y) - snd p) * rate == inject_Z n) -> b <= fill))%Q.
Definition Tpeak (t0 rate lim : Q) (th : throttler) (l : list (Z * Q * Z)) : Prop :=
  (th_avg th <= 0)%Q /\ th_rate th = rate /\ th_limit th = lim /\
  prev t0 l (length l) = (th_bucket th, th_fill th) /\
  forall k y, nth_error l k = Some y -> link rate lim (prev t0 l k) y.
Definition due_of (rate : Q) (x : Z * Q * Z) : Q :=
  (snd (fst x) + (if (snd x <? 0)%Z then inject_Z (- snd x) / rate else 0))%Q.
Definition Rpeak (rate : Q) (l : list (Z * Q * Z)) (k : nat) (t : Q) : Prop :=
  forall y, nth_error l k = Some y -> (due_of rate y <= t)%Q.

Lemma trunc_pos q : (0 <= q)%Q -> (inject_Z (Qtrunc q) <= q)%Q.
Proof.
  destruct q as [a b]. unfold Qle, Qtrunc; cbn. rewrite !Z.mul_1_r. intros H.
  rewrite Z.quot_div_nonneg by lia. rewrite Z.mul_comm. apply Z.mul_div_le. lia.
Qed.
Lemma trunc_any q : (inject_Z (Qtrunc q) < q + 1)%Q.
Proof.
  destruct (Qlt_le_dec q 0) as [H|H].
  - destruct q as [a b]. unfold Qlt, Qtrunc in *; cbn in *. rewrite !Z.mul_1_r in *.
    assert (E : Z.quot a (Zpos b) = (- ((- a) / Zpos b))%Z).
    { rewrite <- (Z.opp_involutive a) at 1. rewrite Z.quot_opp_l by lia. rewrite Z.quot_div_nonneg by lia. reflexivity. }
    rewrite E. pose proof (Z.mod_pos_bound (- a) (Zpos b) ltac:(lia)).
    pose proof (Z.div_mod (- a) (Zpos b) ltac:(lia)). nia.
  - pose proof (trunc_pos q H). lra.
Qed.
Lemma trunc_int q n : (q == inject_Z n)%Q -> Qtrunc q = n.
Proof.
  destruct q as [a b]. unfold Qeq, Qtrunc; cbn. rewrite Z.mul_1_r. intros ->. apply Z.quot_mul. lia.
Qed.
Lemma Tpeak_calc t0 rate lim : (0 < rate)%Q -> (0 < lim)%Q -> forall th l d now,
  Tpeak t0 rate lim th l -> (0 < th_refs th)%Z -> (0 <= d)%Z -> (t0 <= now)%Q ->
  let '(th', sleep) := calculateSleep th d now in
  let l' := l ++ [(d, now, th_bucket th')] in
  Tpeak t0 rate lim th' l' /\ Rpeak rate l' (length l) now \/
  Tpeak t0 rate lim th' l' /\ (0 < sleep)%Q /\ Rpeak rate l' (length l) (now + sleep)%Q.
Proof.
  intros Hrate Hlim th l d now (T1 & T2 & T3 & T4 & T5) Hr Hd Hn. unfold calculateSleep.
  destruct (Z.leb_spec (th_refs th) 0); [lia|]. cbv zeta.
  assert (E0 : averageThrottler (with_progress th (th_progress th + inject_Z d)%Q) now = (-1)%Q).
  { unfold averageThrottler. cbn [with_progress th_avg]. rewrite (Qle_b_true _ _ T1). reflexivity. }
  rewrite E0. change (Qltb 0 (-1)) with false. cbv iota. cbn [with_progress th_rate th_limit th_bucket th_fill].
  rewrite T2, T3. assert (E1 : Qltb 0 rate = true) by (unfold Qltb; rewrite Qle_b_false by exact Hrate; reflexivity).
  assert (E2 : Qltb 0 lim = true) by (unfold Qltb; rewrite Qle_b_false by exact Hlim; reflexivity).
  rewrite E1, E2. cbn [andb].
  set (b1 := Qtrunc (inject_Z (th_bucket th) + (now - th_fill th) * rate)%Q).
  set (b2 := if Qltb lim (inject_Z b1) then Qtrunc lim else b1).
  set (b3 := (b2 - d)%Z).
  assert (B2 : (inject_Z b2 <= lim)%Q /\ (inject_Z b2 <= inject_Z b1)%Q).
  { unfold b2. destruct (Qltb lim (inject_Z b1)) eqn:E.
    - apply Qlt_b in E. pose proof (trunc_pos lim ltac:(lra)). lra.
    - apply Qlt_b' in E. lra. }
  assert (Lk : link rate lim (prev t0 l (length l)) (d, now, b3)).
  { rewrite T4. unfold link. cbn [fst snd c_bytes]. replace (b3 + d)%Z with b2 by (unfold b3; lia).
    split; [lra|]. split.
    - pose proof (trunc_any (inject_Z (th_bucket th) + (now - th_fill th) * rate)). fold b1 in H0. lra.
    - intros (n & En). assert (Ew : b1 = (th_bucket th + n)%Z).
      { apply trunc_int. rewrite inject_Z_plus, <- En. reflexivity. }
      rewrite Ew, inject_Z_plus, <- En in B2. lra. }
  assert (Tp : forall th', (th_avg th' <= 0)%Q -> th_rate th' = rate -> th_limit th' = lim -> th_bucket th' = b3 ->
            th_fill th' = now -> Tpeak t0 rate lim th' (l ++ [(d, now, b3)])).
  { intros th' U1 U2 U3 U4 U5. split; [exact U1|]. split; [exact U2|]. split; [exact U3|]. split.
    - rewrite app_length. cbn [length]. rewrite Nat.add_1_r. cbn [prev].
      rewrite nth_error_app2, Nat.sub_diag by lia. cbn. congruence.
    - assert (Pv : forall k, (k <= length l)%nat -> prev t0 (l ++ [(d, now, b3)]) k = prev t0 l k).
      { intros [|k] Hk; [reflexivity|]. cbn [prev]. rewrite nth_error_app1 by lia. reflexivity. }
      intros k y Hk. assert (k < length (l ++ [(d, now, b3)]))%nat by (apply nth_error_Some; congruence).
      rewrite app_length in H0. cbn [length] in H0. rewrite Pv by lia.
      destruct (Nat.ltb_spec k (length l)).
      + rewrite nth_error_app1 in Hk by lia. apply T5, Hk.
      + rewrite nth_error_app2 in Hk by lia. replace (k - length l)%nat with O in Hk by lia. cbn in Hk.
        injection Hk as <-. replace k with (length l) by lia. exact Lk. }
  assert (Rp : forall t, (due_of rate (d, now, b3) <= t)%Q -> Rpeak rate (l ++ [(d, now, b3)]) (length l) t).
  { intros t Ht y Hy. rewrite nth_error_app2, Nat.sub_diag in Hy by lia. cbn in Hy. injection Hy as <-. exact Ht. }
  cbn [with_bucket th_bucket].
  destruct (Z.ltb_spec b3 0) as [N|N].
  - right. split; [apply Tp; auto|]. split.
    + assert ((0 < inject_Z (- b3))%Q) by (change 0%Q with (inject_Z 0); rewrite <- Zlt_Qlt; lia).
      apply Qlt_shift_div_l; lra.
    + apply Rp. unfold due_of. cbn [fst snd]. destruct (Z.ltb_spec b3 0); [|lia]. apply Qle_refl.
  - left. split; [apply Tp; auto|]. apply Rp. unfold due_of. cbn [fst snd]. destruct (Z.ltb_spec b3 0); [lia|]. lra.
Qed.

Lemma peak_inv th now n evs s : (th_avg th <= 0)%Q -> (0 < th_rate th)%Q -> (0 < th_limit th)%Q -> (0 < th_single th)%Z ->
  tk_run evs (tk_init th now n) = Some s ->
  (forall c, In c (tk_log s) -> (0 <= ch_bytes c)%Z) /\
  (forall k y, nth_error (map core (tk_log s)) k = Some y ->
     link (th_rate th) (th_limit th) (prev now (map core (tk_log s)) k) y) /\
  (forall k c e, nth_error (tk_log s) k = Some c -> ch_end c = Some e -> (due (th_rate th) c <= e)%Q).
Proof.
  intros Ha Hr Hl Hs H.
  assert (G : GInv now (Tpeak now (th_rate th) (th_limit th)) (Rpeak (th_rate th)) s).
  { eapply GInv_run; [| | | |apply GInv_init|exact H].
    - intros l l' k u Hk HR y Hy. rewrite nth_error_app1 in Hy by lia. apply HR, Hy.
    - intros l k u w Hu HR y Hy. pose proof (HR y Hy). lra.
    - intros th' l m (A & B & C & D & E). repeat (split; [assumption|]). exact E.
    - exact (Tpeak_calc now (th_rate th) (th_limit th) Hr Hl).
    - exact Hs.
    - split; [exact Ha|]. repeat (split; [reflexivity|]). intros [|k] y Hy; discriminate. }
  split; [exact (g_bytes _ _ _ _ G)|]. split.
  - exact (proj2 (proj2 (proj2 (proj2 (g_th _ _ _ _ G))))).
  - intros k c e H1 H2. destruct (g_done _ _ _ _ G k c e H1 H2) as (_ & D).
    exact (D (core c) (core_nth _ _ _ H1)).
Qed.

Lemma between_0 i log : between i i log = 0%Z.
Proof. unfold between. rewrite Nat.sub_diag. reflexivity. Qed.
Lemma between_S i j log y : (i <= j)%nat -> nth_error log (S j) = Some y ->
  between i (S j) log = (between i j log + ch_bytes y)%Z.
Proof.
  intros H E. unfold between. rewrite Nat.sub_succ_l by lia.
  assert (E' : nth_error (skipn (S i) log) (j - i) = Some y).
  { assert (G : forall m k l, nth_error (skipn m l) k = @nth_error charge l (m + k)%nat).
    { clear. intros m. induction m as [|m IH]; intros k l; [reflexivity|].
      destruct l; cbn; [destruct k; reflexivity|]. apply IH. }
    rewrite G, <- E. f_equal. lia. }
  revert E'. generalize (skipn (S i) log). intros l. generalize (j - i)%nat. intros k. revert l.
  induction k as [|k IH]; intros [|a l] E'; cbn in E'; try discriminate.
  - injection E' as ->. cbn. lia.
  - specialize (IH l E'). set (n := S k) in *. cbn [firstn zsum]. change (S n) with (S (S k)). cbn [firstn zsum].
    subst n. cbn [firstn zsum] in IH |- *. lia.
Qed.

Section Window.
Context (t0 rate lim : Q) (log : list charge).
Context (Hrate : (0 < rate)%Q).
Context (Hb : forall c, In c log -> (0 <= ch_bytes c)%Z).
Context (Hl : forall k y, nth_error (map core log) k = Some y -> link rate lim (prev t0 (map core log) k) y).
Context (Hd : forall k c e, nth_error log k = Some c -> ch_end c = Some e -> (due rate c <= e)%Q).

Lemma link_next k x y : nth_error log k = Some x -> nth_error log (S k) = Some y ->
  link rate lim (ch_bucket x, ch_now x) (core y).
Proof.
  intros Hx Hy. specialize (Hl (S k) (core y) (core_nth _ _ _ Hy)). cbn [prev] in Hl.
  rewrite (core_nth _ _ _ Hx) in Hl. exact Hl.
Qed.
(** [gain]: what the truncations may give away. *)
Definition gain_ok (gain : Q) : Prop :=
  forall k x y, nth_error log k = Some x -> nth_error log (S k) = Some y ->
    (inject_Z (ch_bucket y + ch_bytes y) <= inject_Z (ch_bucket x) + (ch_now y - ch_now x) * rate + gain)%Q.
Lemma gain_one : gain_ok 1.
Proof.
  intros k x y Hx Hy. destruct (link_next k x y Hx Hy) as (_ & L & _). cbn [core fst snd c_bytes] in L. lra.
Qed.
Lemma gain_zero : whole_tokens t0 rate log -> gain_ok 0.
Proof.
  intros W k x y Hx Hy. destruct (link_next k x y Hx Hy) as (_ & _ & L). cbn [core fst snd c_bytes] in L.
  specialize (W (S k) y Hy). cbv iota in W. rewrite Hx in W. specialize (L W). lra.
Qed.
Lemma between_le gain i x : gain_ok gain -> nth_error log i = Some x -> forall j y, (i <= j)%nat -> nth_error log j = Some y ->
  (inject_Z (between i j log) <= inject_Z (ch_bucket x) - inject_Z (ch_bucket y) + (ch_now y - ch_now x) * rate
     + gain * inject_Z (Z.of_nat (j - i)))%Q.
Proof.
  intros G Hx j. induction j as [|j IH]; intros y Hij Hy.
  - assert (i = O) by lia. subst i. rewrite Hx in Hy. injection Hy as <-. rewrite between_0, Nat.sub_diag.
    change (inject_Z (Z.of_nat 0)) with 0%Q. change (inject_Z 0) with 0%Q. lra.
  - destruct (Nat.eqb_spec i (S j)) as [->|Hne].
    + rewrite Hx in Hy. injection Hy as <-. rewrite between_0, Nat.sub_diag. change (inject_Z (Z.of_nat 0)) with 0%Q.
      change (inject_Z 0) with 0%Q. lra.
    + destruct (nth_error log j) as [z|] eqn:Ez.
      2:{ apply nth_error_None in Ez. assert (S j < length log)%nat by (apply nth_error_Some; congruence). lia. }
      specialize (IH z ltac:(lia) eq_refl). rewrite (between_S i j log y) by (auto; lia).
      specialize (G j z y Ez Hy). rewrite inject_Z_plus in *.
      replace (Z.of_nat (S j - i)) with (Z.of_nat (j - i) + 1)%Z by lia. rewrite inject_Z_plus.
      change (inject_Z 1) with 1%Q. lra.
Qed.
Lemma bucket_lim k x : nth_error log k = Some x -> (inject_Z (ch_bucket x) <= lim)%Q.
Proof.
  intros Hx. destruct (Hl k (core x) (core_nth _ _ _ Hx)) as (L & _). cbn [core fst snd c_bytes] in L.
  pose proof (Hb x (nth_error_In _ _ Hx)) as B. rewrite Zle_Qle in B. change (inject_Z 0) with 0%Q in B.
  rewrite inject_Z_plus in L. lra.
Qed.
Lemma due_low c : (rate * ch_now c - inject_Z (ch_bucket c) <= rate * due rate c)%Q /\ (ch_now c <= due rate c)%Q.
Proof.
  unfold due. destruct (Z.ltb_spec (ch_bucket c) 0) as [N|N].
  - assert (E : (rate * (inject_Z (- ch_bucket c) / rate) == inject_Z (- ch_bucket c))%Q) by (apply Qdiv_back; exact Hrate).
    assert (P : (0 < inject_Z (- ch_bucket c))%Q) by (change 0%Q with (inject_Z 0); rewrite <- Zlt_Qlt; lia).
    assert (0 < inject_Z (- ch_bucket c) / rate)%Q by (apply Qlt_shift_div_l; lra).
    rewrite inject_Z_opp in *. split; [|lra]. rewrite Qmult_plus_distr_r, E. lra.
  - rewrite Zle_Qle in N. change (inject_Z 0) with 0%Q in N. split; [|lra].
    rewrite Qplus_0_r. lra.
Qed.
Lemma due_high c : (rate * due rate c <= rate * ch_now c + (if (ch_bucket c <? 0)%Z then - inject_Z (ch_bucket c) else 0))%Q.
Proof.
  unfold due. destruct (ch_bucket c <? 0)%Z.
  - rewrite Qmult_plus_distr_r, (Qdiv_back _ _ Hrate), inject_Z_opp. lra.
  - rewrite Qplus_0_r. lra.
Qed.
Lemma lock_window gain i j x y b : gain_ok gain -> (0 <= lim)%Q -> (i <= j)%nat -> nth_error log i = Some x -> nth_error log j = Some y ->
  (due rate y <= b)%Q ->
  (inject_Z (between i j log) <= lim + rate * (b - due rate x) + gain * inject_Z (Z.of_nat (j - i)))%Q.
Proof.
  intros G L0 Hij Hx Hy Hd'. pose proof (between_le gain i x G Hx j y Hij Hy) as B.
  pose proof (due_low y) as (D1 & _). pose proof (due_high x) as D2. pose proof (bucket_lim i x Hx) as Bl.
  pose proof (Qmult_mono rate _ _ (Qlt_le_weak _ _ Hrate) Hd') as M.
  destruct (ch_bucket x <? 0)%Z; lra.
Qed.

(** With precise clocks requests return in the order of the lock. *)
Lemma due_mono_step k x y : gain_ok 0 -> in_order log -> nth_error log k = Some x -> nth_error log (S k) = Some y ->
  (due rate x <= due rate y)%Q.
Proof.
  intros G O Hx Hy. specialize (G k x y Hx Hy). specialize (O k x y Hx Hy).
  pose proof (Hb y (nth_error_In _ _ Hy)) as B. rewrite Zle_Qle in B. change (inject_Z 0) with 0%Q in B.
  pose proof (due_low y) as (D1 & D2). pose proof (due_high x) as D3. rewrite inject_Z_plus in G.
  assert (Hm : forall a b, (rate * a <= rate * b -> a <= b)%Q).
  { intros a b H. rewrite (Qmult_comm rate a), (Qmult_comm rate b) in H. eapply Qmult_lt_0_le_reg_r; eassumption. }
  destruct (ch_bucket x <? 0)%Z eqn:E.
  - apply Hm. lra.
  - unfold due at 1. rewrite E. lra.
Qed.
Lemma due_mono : gain_ok 0 -> in_order log -> forall i j x y, (i <= j)%nat -> nth_error log i = Some x ->
  nth_error log j = Some y -> (due rate x <= due rate y)%Q.
Proof.
  intros G O i j x y Hij Hx. revert y. induction Hij as [|j Hij IH]; intros y Hy.
  - rewrite Hx in Hy. injection Hy as <-. apply Qle_refl.
  - destruct (nth_error log j) as [z|] eqn:Ez.
    2:{ apply nth_error_None in Ez. assert (S j < length log)%nat by (apply nth_error_Some; congruence). lia. }
    pose proof (IH z eq_refl). pose proof (due_mono_step j z y G O Ez Hy). lra.
Qed.
Definition inside (a b : Q) (c : charge) : bool :=
  match ch_end c with Some t => Qltb a t && Qle_bool t b | None => false end.
Lemma passed_inside a b l : passed a b l = zsum (fun c => if inside a b c then ch_bytes c else 0%Z) l.
Proof.
  apply zsum_ext. intros c _. unfold inside. destruct (ch_end c) as [t|]; reflexivity.
Qed.
(** Nothing inside up to number [i] and behind number [j]. *)
Lemma passed_range a b i j :
  (i <= j)%nat ->
  (forall k c, nth_error log k = Some c -> inside a b c = true -> (i < k <= j)%nat) ->
  (passed a b log <= between i j log)%Z.
Proof.
  intros Hij H. rewrite passed_inside. unfold between.
  set (f := fun c => if inside a b c then ch_bytes c else 0%Z).
  assert (E : (zsum f log = zsum f (firstn (S i) log) + (zsum f (firstn (j - i) (skipn (S i) log)) + zsum f (skipn (j - i) (skipn (S i) log))))%Z).
  { rewrite <- zsum_app, firstn_skipn, <- zsum_app, firstn_skipn. reflexivity. }
  assert (Z1 : zsum f (firstn (S i) log) = 0%Z).
  { rewrite (zsum_ext f (fun _ => 0%Z)).
    - clear. induction (firstn (S i) log); cbn; lia.
    - intros c Hc. apply In_nth_error in Hc. destruct Hc as (k & Hk).
      assert (k < S i)%nat.
      { assert (k < length (firstn (S i) log))%nat by (apply nth_error_Some; congruence). rewrite firstn_length in H0. lia. }
      assert (Hk' : nth_error log k = Some c).
      { rewrite <- (firstn_skipn (S i) log). rewrite nth_error_app1; [exact Hk|]. apply nth_error_Some. congruence. }
      unfold f. destruct (inside a b c) eqn:Ei; [|reflexivity]. pose proof (H k c Hk' Ei). lia. }
  assert (Z2 : zsum f (skipn (j - i) (skipn (S i) log)) = 0%Z).
  { assert (Es : skipn (j - i) (skipn (S i) log) = skipn (S j) log).
    { replace (S j) with (S i + (j - i))%nat by lia. clear. generalize (j - i)%nat. intros m.
      generalize (S i). intros n. revert log. induction n as [|n IH]; intros [|c l]; try reflexivity; [destruct m; reflexivity|].
      exact (IH l). }
    rewrite Es. rewrite (zsum_ext f (fun _ => 0%Z)).
    - clear. induction (skipn (S j) log); cbn; lia.
    - intros c Hc. apply In_nth_error in Hc. destruct Hc as (k & Hk).
      assert (Hk' : nth_error log (S j + k) = Some c).
      { assert (S j < length log \/ length log <= S j)%nat as [L|L] by lia.
        - rewrite <- (firstn_skipn (S j) log). rewrite nth_error_app2; rewrite firstn_length_le by lia; [|lia].
          rewrite <- Hk. f_equal. lia.
        - rewrite skipn_all2 in Hk by lia. destruct k; discriminate. }
      unfold f. destruct (inside a b c) eqn:Ei; [|reflexivity]. pose proof (H _ c Hk' Ei). lia. }
  rewrite E, Z1, Z2.
  assert (M : forall l, (forall c, In c l -> 0 <= ch_bytes c)%Z -> (zsum f l <= zsum ch_bytes l)%Z).
  { clear. intros l Hn. induction l as [|c l IH]; cbn [zsum]; [lia|].
    assert (0 <= ch_bytes c)%Z by (apply Hn; left; reflexivity).
    assert (zsum f l <= zsum ch_bytes l)%Z by (apply IH; intros; apply Hn; right; assumption).
    unfold f at 1. destruct (inside a b c); lia. }
  assert (In_sub : forall c, In c (firstn (j - i) (skipn (S i) log)) -> In c log).
  { intros c Hc. rewrite <- (firstn_skipn (S i) log). apply in_or_app. right.
    rewrite <- (firstn_skipn (j - i) (skipn (S i) log)). apply in_or_app. left. exact Hc. }
  specialize (M (firstn (j - i) (skipn (S i) log)) (fun c Hc => Hb c (In_sub c Hc))). lia.
Qed.
Lemma time_window i x a b : (0 <= lim)%Q -> gain_ok 0 -> in_order log -> punctual rate log ->
  nth_error log i = Some x -> ch_end x = Some a -> (a <= b)%Q ->
  (inject_Z (passed a b log) <= lim + rate * (b - a))%Q.
Proof.
  intros L0 G O P Hx Ha Hab.
  assert (Ea : (a == due rate x)%Q) by (apply (P x); [eapply nth_error_In, Hx|exact Ha]).
  (* the last request inside *)
  assert (Last : forall n, exists j, (i <= j)%nat /\
            (exists y, nth_error log j = Some y /\ (due rate y <= b)%Q) /\
            (forall k c, (k < n)%nat -> nth_error log k = Some c -> inside a b c = true -> (k <= j)%nat)).
  { induction n as [|n (j & J1 & J2 & J3)].
    - exists i. split; [lia|]. split; [exists x; split; [exact Hx|lra]|]. intros; lia.
    - destruct (nth_error log n) as [c|] eqn:En.
      + destruct (inside a b c) eqn:Ei.
        * destruct (Nat.leb_spec n j).
          -- exists j. split; [exact J1|]. split; [exact J2|]. intros k d Hk Hn Hi.
             destruct (Nat.eqb_spec k n); [lia|]. apply (J3 k d); auto. lia.
          -- exists n. split; [lia|]. split.
             ++ exists c. split; [exact En|]. unfold inside in Ei. destruct (ch_end c) as [t|] eqn:Et; [|discriminate].
                apply andb_prop in Ei. destruct Ei as (_ & Ei). apply Qle_b in Ei.
                pose proof (Hd n c t En Et). lra.
             ++ intros k d Hk Hn Hi. lia.
        * exists j. split; [exact J1|]. split; [exact J2|]. intros k d Hk Hn Hi.
          destruct (Nat.eqb_spec k n) as [->|]; [congruence|]. apply (J3 k d); auto. lia.
      + exists j. split; [exact J1|]. split; [exact J2|]. intros k d Hk Hn Hi.
        destruct (Nat.eqb_spec k n) as [->|]; [congruence|]. apply (J3 k d); auto. lia. }
  destruct (Last (length log)) as (j & J1 & (y & J2 & J4) & J3).
  assert (Rg : (passed a b log <= between i j log)%Z).
  { apply passed_range; [exact J1|]. intros k c Hk Hi.
    assert (k < length log)%nat by (apply nth_error_Some; congruence).
    split; [|apply (J3 k c); auto].
    destruct (Nat.ltb_spec i k) as [|Hki]; [assumption|]. exfalso.
    pose proof (due_mono G O k i c x Hki Hk Hx) as M.
    unfold inside in Hi. destruct (ch_end c) as [t|] eqn:Et; [|discriminate]. apply andb_prop in Hi.
    destruct Hi as (Hi & _). apply Qlt_b in Hi.
    assert (t == due rate c)%Q by (apply (P c); [eapply nth_error_In, Hk|exact Et]). lra. }
  pose proof (lock_window 0 i j x y b G L0 J1 Hx J2 J4) as W. rewrite Zle_Qle in Rg.
  assert (Em : (rate * (b - due rate x) == rate * (b - a))%Q) by (rewrite Ea; reflexivity). lra.
Qed.
End Window.

Lemma peak_lock th now n evs s i j x y a b : (th_avg th <= 0)%Q -> (0 < th_rate th)%Q -> (0 < th_limit th)%Q ->
  (0 < th_single th)%Z -> tk_run evs (tk_init th now n) = Some s -> (i <= j)%nat ->
  nth_error (tk_log s) i = Some x -> ch_end x = Some a -> nth_error (tk_log s) j = Some y -> ch_end y = Some b ->
  (inject_Z (between i j (tk_log s)) <=
     th_limit th + th_rate th * (b - a) + th_rate th * (a - due (th_rate th) x) + inject_Z (Z.of_nat (j - i)))%Q.
Proof.
  intros Ha Hr Hl Hs H Hij Hx Hxe Hy Hye.
  destruct (peak_inv th now n evs s Ha Hr Hl Hs H) as (P1 & P2 & P3).
  pose proof (lock_window now (th_rate th) (th_limit th) (tk_log s) Hr P1 P2 P3 1 i j x y b
    (gain_one now _ _ _ P2) ltac:(lra) Hij Hx Hy (P3 j y b Hy Hye)). lra.
Qed.
Lemma peak_window th now n evs s x a b : (th_avg th <= 0)%Q -> (0 < th_rate th)%Q -> (0 < th_limit th)%Q ->
  (0 < th_single th)%Z -> tk_run evs (tk_init th now n) = Some s ->
  punctual (th_rate th) (tk_log s) -> in_order (tk_log s) -> whole_tokens now (th_rate th) (tk_log s) ->
  In x (tk_log s) -> ch_end x = Some a -> (a <= b)%Q ->
  (inject_Z (passed a b (tk_log s)) <= th_limit th + th_rate th * (b - a))%Q.
Proof.
  intros Ha Hr Hl Hs H Hp Ho Hw Hx Hxe Hab.
  destruct (peak_inv th now n evs s Ha Hr Hl Hs H) as (P1 & P2 & P3).
  apply In_nth_error in Hx. destruct Hx as (i & Hx).
  apply (time_window now (th_rate th) (th_limit th) (tk_log s) Hr P1 P2 P3 i x a b); auto; try lra.
  apply (gain_zero now _ _ _ P2 Hw).
Qed.

(** ---- Options and new rates ---- *)
Lemma options_kept avg peak bucket a p b : configureOptions avg peak bucket = (a, p, b) ->
  a = avg /\ ((avg <= peak)%Q \/ (peak < 0)%Q -> p = peak) /\
  ((0 < bucket)%Q -> b = bucket) /\
  ((0 < avg)%Q -> (0 <= peak)%Q -> (avg <= p)%Q) /\ ((0 < p)%Q -> (0 < b)%Q).
Proof.
  unfold configureOptions. intros [= <- <- <-]. split; [reflexivity|].
  assert (P : ((avg <= peak)%Q \/ (peak < 0)%Q ->
    (if Qltb peak avg && Qle_bool 0 peak then (6 # 5) * avg else peak)%Q = peak)).
  { intros H. destruct (Qltb peak avg) eqn:E1; [|reflexivity]. destruct (Qle_bool 0 peak) eqn:E2; [|reflexivity].
    apply Qlt_b in E1. apply Qle_b in E2. lra. }
  split; [exact P|]. set (p := (if Qltb peak avg && Qle_bool 0 peak then (6 # 5) * avg else peak)%Q) in *.
  split; [|split].
  - intros H. rewrite (Qle_b_false _ _ H). reflexivity.
  - intros H1 H2. unfold p. destruct (Qltb peak avg) eqn:E1; cbn [andb].
    + rewrite (Qle_b_true _ _ H2). lra.
    + apply Qlt_b' in E1. exact E1.
  - intros H. destruct (Qle_bool bucket 0) eqn:E; cbn [andb]; [|apply Qle_b' in E; exact E].
    unfold Qltb. rewrite (Qle_b_false _ _ H). cbn [negb]. lra.
Qed.
Lemma new_kept o t : newThrottler o = Some t ->
  th_avg t = to_avg o /\ th_rate t = to_max o /\ ((0 < to_bucket o)%Q -> th_limit t = to_bucket o) /\
  ((0 < to_max o)%Q -> (0 < th_limit t)%Q) /\ th_single t = to_single o /\ (0 < th_single t)%Z.
Proof.
  unfold newThrottler. destruct (Z.leb_spec (to_single o) 0); [discriminate|]. intros [= <-].
  cbn [th_avg th_rate th_limit th_single]. split; [reflexivity|]. split; [reflexivity|]. split; [|split].
  - intros E. unfold Qltb. rewrite (Qle_b_false _ _ E). reflexivity.
  - intros E. destruct (Qltb 0 (to_bucket o)) eqn:B; [apply Qlt_b in B; exact B|]. lra.
  - split; [reflexivity|assumption].
Qed.

Lemma new_average th now evs0 n s0 a p b evs s t :
  (0 < th_single th)%Z -> tk_run evs0 (tk_init th now n) = Some s0 ->
  (forall x, In x (tk_threads s0) -> x = TkIdle) -> (0 < a)%Q -> (tk_clock s0 <= t)%Q ->
  tk_run evs {| tk_th := setThrottlerRates (tk_clock s0) a p b (tk_th s0); tk_clock := tk_clock s0;
                tk_threads := tk_threads s0; tk_log := []; tk_calls := [] |} = Some s ->
  (inject_Z (returned t (tk_calls s)) <= a * (t - tk_clock s0))%Q.
Proof.
  intros Hs H0 Hi Ha Ht H.
  assert (G0 : GInv now (fun _ _ => True) (fun _ _ _ => True) s0).
  { eapply GInv_run; [| | | |apply GInv_init|exact H0]; auto.
    intros th' l d u _ _ _ _. destruct (calculateSleep th' d u). left. auto. }
  set (c := tk_clock s0) in *.
  assert (G : GInv c (Tavg c a) (Ravg c a) s).
  { eapply GInv_run; [| | | | |exact H].
    - intros l l' k u Hk HR. unfold Ravg in *. rewrite firstn_app. replace (S k - length l)%nat with O by lia.
      rewrite firstn_O, app_nil_r. exact HR.
    - intros l k u w Hu HR. unfold Ravg in *.
      pose proof (Qmult_mono a (u - c) (w - c) ltac:(lra) ltac:(lra)). lra.
    - intros th' l m (A & B & C). split; [exact A|]. split; [exact B|exact C].
    - exact (Tavg_calc c a Ha).
    - assert (E : setThrottlerRates c a p b (tk_th s0) =
        {| th_start := c; th_progress := 0; th_fill := c; th_bucket := 0; th_refs := th_refs (tk_th s0);
           th_avg := a; th_limit := th_limit (setThrottlerRates c a p b (tk_th s0));
           th_rate := th_rate (setThrottlerRates c a p b (tk_th s0)); th_single := th_single (tk_th s0) |}) by reflexivity.
      constructor; cbn [tk_th tk_clock tk_threads tk_log tk_calls].
      + lra.
      + exact (g_refs _ _ _ _ G0).
      + exact (g_single _ _ _ _ G0).
      + rewrite E. split; [reflexivity|]. split; reflexivity.
      + intros x [].
      + intros i x Hx. apply nth_error_In, Hi in Hx. subst x. exact I.
      + intros i j q1 q2 k w q3 q4 w' Hx. apply nth_error_In, Hi in Hx. discriminate Hx.
      + intros [|k] x e Hx; discriminate Hx.
      + intros u. unfold returned, partial, upto. cbn [zsum].
        enough (zsum (fun x => if Qle_bool c u then num_of x else 0%Z) (tk_threads s0) = 0%Z) by lia.
        clear -Hi. induction (tk_threads s0) as [|x l IH]; [reflexivity|]. cbn [zsum].
        rewrite IH by (intros; apply Hi; right; assumption). rewrite (Hi x (or_introl eq_refl)). cbn [num_of].
        destruct (Qle_bool c u); reflexivity. }
  pose proof (g_account _ _ _ _ G t) as A.
  assert (P : (0 <= partial (tk_clock s) t (tk_threads s))%Z).
  { apply zsum_nonneg. intros x Hx. pose proof (num_nonneg _ _ _ _ G x Hx). destruct (Qle_bool (tk_clock s) t); lia. }
  pose proof (upto_le c a t (tk_log s) Ha Ht (g_bytes _ _ _ _ G)
    (fun k c' e H1 H2 => proj2 (g_done _ _ _ _ G k c' e H1 H2))) as U.
  assert (M : (returned t (tk_calls s) <= upto t (tk_log s))%Z) by lia. rewrite Zle_Qle in M. lra.
Qed.
