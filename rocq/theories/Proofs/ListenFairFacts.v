(** Accepting: no address is starved, connections are found in time, and when checks
    fail. *)
From Coq Require Import Lia.
From Verif Require Import Model.Bytes Model.Connect Model.Listen Spec.ListenSpec Proofs.ListenFacts.

Definition dist (n start j : Z) : Z := (j - start) mod n.
Lemma first_closer n start ready idx j : 0 < n -> 0 <= j < n -> nth (Z.to_nat j) ready false = true ->
  first_ready n start ready idx -> idx = j \/ (0 <= idx < n /\ dist n ((idx + 1) mod n) j < dist n start j).
Proof.
  intros Hn Hj R (k & Hk & E & N & F). unfold dist.
  assert (D : 0 <= (j - start) mod n < n) by (apply Z.mod_pos_bound; lia).
  assert (J : (start + (j - start) mod n) mod n = j).
  { rewrite Z.add_mod_idemp_r by lia. replace (start + (j - start)) with j by lia. apply Z.mod_small. lia. }
  assert (K : k <= (j - start) mod n).
  { destruct (Z_lt_le_dec ((j - start) mod n) k) as [L|L]; [|exact L].
    specialize (F _ (conj (proj1 D) L)). rewrite J, R in F. discriminate F. }
  destruct (Z.eq_dec k ((j - start) mod n)) as [->|Ne]; [left; now rewrite E, J|right].
  split; [rewrite E; apply Z.mod_pos_bound; lia|].
  assert (X : (j - (idx + 1) mod n) mod n = (j - start) mod n - k - 1).
  { rewrite Zminus_mod_idemp_r. rewrite E.
    replace (j - ((start + k) mod n + 1)) with ((j - 1) - (start + k) mod n) by lia.
    rewrite Zminus_mod_idemp_r.
    replace (j - 1 - (start + k)) with ((j - start) + (- k - 1)) by lia.
    rewrite <- Z.add_mod_idemp_l by lia.
    rewrite Z.mod_small; lia. }
  rewrite X. lia.
Qed.

Lemma hang_trace s : exists new, l_tr (closeNoCheck s) = l_tr s ++ new.
Proof.
  unfold closeNoCheck. destruct (l_conn s <? 0); [exists []; now rewrite app_nil_r|]. eexists. reflexivity.
Qed.

Lemma fair_steps o j l : forall s s', l_fds s <> [] -> 0 <= l_idx s -> 0 <= j < zlen (l_fds s) ->
  (forall c p, In c l -> In p (k_polls c) -> nth (Z.to_nat j) (lp_ready p) false = true) ->
  dist (zlen (l_fds s)) (acc_start (zlen (l_fds s)) (l_idx s) false) j < zlen l ->
  accepted o s l = Some s' ->
  exists new c, l_tr s' = l_tr s ++ new /\ In c l /\ In (LAccept (nth (Z.to_nat j) (l_fds s) (-1)) (k_acc c)) new.
Proof.
  induction l as [|c l IH]; intros s s' Hf Hi Hj R D E.
  - exfalso. unfold dist, zlen at 3 in D. cbn in D.
    pose proof (Z.mod_pos_bound (j - acc_start (zlen (l_fds s)) (l_idx s) false) (zlen (l_fds s)) ltac:(lia)). lia.
  - cbn in E. destruct (hang_fields s) as (F1 & F2 & F3 & F4). destruct (hang_trace s) as [h Hh].
    destruct (acceptNextConnection o [] (k_timeout c) false (k_polls c) (k_acc c) (closeNoCheck s)) as [[[code s1]|]| |] eqn:A; try discriminate E.
    destruct (code =? OK) eqn:C; [|discriminate E].
    destruct (accept_sound _ _ _ _ _ _ _ _ _ (eq_ind_r (fun x => x <> []) Hf F1) (eq_ind_r (fun x => 0 <= x) Hi F3) A)
      as (_ & A2 & _ & A4 & _ & A6).
    rewrite C in A6. rewrite F1 in A2, A6. rewrite F3 in A6.
    destruct A6 as (p & Hp & Fr & Lt & _ & _ & Tr).
    assert (Hn : 0 < zlen (l_fds s)) by lia.
    destruct (first_closer _ _ _ _ j Hn Hj (R c p (or_introl eq_refl) Hp) Fr) as [Ej|[B Cl]].
    + assert (T : exists t, l_tr s' = l_tr s1 ++ t).
      { clear -E. revert s1 E. induction l as [|c l IH]; intros s1 E; [injection E as <-; exists []; now rewrite app_nil_r|].
        cbn in E. destruct (acceptNextConnection o [] (k_timeout c) false (k_polls c) (k_acc c) (closeNoCheck s1)) as [[[code s2]|]| |] eqn:A; try discriminate E.
        destruct (code =? OK) eqn:C; [|discriminate E]. destruct (IH _ E) as [t T].
        destruct (hang_trace s1) as [h Hh].
        assert (X : exists u, l_tr s2 = l_tr (closeNoCheck s1) ++ u).
        { clear -A. unfold acceptNextConnection, listen in A.
          destruct (l_fds (closeNoCheck s1)) as [|f0 fr] eqn:F; [discriminate A|]. cbn [obind] in A.
          change (negb (OK =? OK)) with false in A. cbv iota in A. rewrite F in A.
          destruct (k_timeout c <=? 0); [discriminate A|].
          destruct (acc_wait o (k_timeout c) 0 (k_polls c) (closeNoCheck s1)) as [[[c0|ready] s3]|] eqn:W; [| |discriminate A];
            pose proof (wait_state _ _ _ _ _ _ _ W) as (W1 & W2 & W3 & W4 & W5).
          - injection A as <- <-. exists []. now rewrite app_nil_r.
          - cbv zeta in A. destruct (acc_pick _ _ _ ready) as [[found idx]| |]; cbn [obind] in A; try discriminate A.
            destruct found; cbn [negb] in A; [|injection A as <- <-; exists []; cbn; now rewrite app_nil_r].
            destruct (k_acc c <? 0); [injection A as <- <-; exists []; cbn; now rewrite app_nil_r|].
            injection A as <- <-. cbn [l_setConn l_say l_tr l_setIdx]. rewrite W5. eexists. reflexivity. }
        destruct X as [u X]. exists (h ++ u ++ t). now rewrite T, X, Hh, <- !app_assoc. }
      destruct T as [t T]. exists (h ++ [LAccept (nth (Z.to_nat (l_idx s1)) (l_fds s) (-1)) (k_acc c)] ++ t), c.
      split; [now rewrite T, Tr, Hh, <- !app_assoc|]. split; [now left|].
      apply in_or_app. right. apply in_or_app. left. left. now rewrite Ej.
    + assert (Hz : zlen (c :: l) = zlen l + 1) by (unfold zlen; cbn [length]; lia).
      assert (St : acc_start (zlen (l_fds s)) (l_idx s1) false = (l_idx s1 + 1) mod zlen (l_fds s)).
      { unfold acc_start. assert (G : (zlen (l_fds s) <=? l_idx s1) = false) by (apply Z.leb_gt; lia). now rewrite G. }
      assert (IHp := IH s1 s'). rewrite A2 in IHp.
      destruct (IHp Hf A4 Hj) as (new & c' & Tn & Ic & In').
      { intros c0 p0 H1 H2. apply (R c0 p0); [now right|exact H2]. }
      { rewrite St. lia. }
      { exact E. }
      exists (h ++ [LAccept (nth (Z.to_nat (l_idx s1)) (l_fds s) (-1)) (k_acc c)] ++ new), c'.
      split; [now rewrite Tn, Tr, Hh, <- !app_assoc|]. split; [now right|].
      apply in_or_app. right. apply in_or_app. now right.
Qed.
Lemma fair o j l s s' : l_fds s <> [] -> 0 <= l_idx s -> 0 <= j < zlen (l_fds s) ->
  (forall c p, In c l -> In p (k_polls c) -> nth (Z.to_nat j) (lp_ready p) false = true) ->
  zlen (l_fds s) <= zlen l -> accepted o s l = Some s' ->
  exists new c, l_tr s' = l_tr s ++ new /\ In c l /\ In (LAccept (nth (Z.to_nat j) (l_fds s) (-1)) (k_acc c)) new.
Proof.
  intros Hf Hi Hj R L E. eapply (fair_steps o j l s s'); try eassumption. unfold dist.
  pose proof (Z.mod_pos_bound (j - acc_start (zlen (l_fds s)) (l_idx s) false) (zlen (l_fds s)) ltac:(lia)). lia.
Qed.

(** ** Checks *)
Lemma scan_port_ok more port bound l : forall s, port <> 0 -> names_right port l -> scan more port bound l s <> Crash.
Proof.
  induction l as [|i r IH]; intros s Hp N E; [destruct more; discriminate E|].
  assert (Nr : names_right port r) by (intros x p H; apply N; now right).
  assert (U : scan more port bound (i :: r) s =
      if in_fam i =? bound then scan more port bound r s
      else if match in_name i with Some p => negb (p =? port) | None => false end then Crash
      else
        let '(fd, s1) := listenInternal i port s in
        if fd <? 0 then scan more port bound r s1
        else if port =? 0 then
          if negb (in_ask i) then scan more port bound r (l_say s1 (LClose fd))
          else
            match more with
            | [] => Ret None
            | None :: more' | Some [] :: more' => scan more' port bound r (l_say s1 (LClose fd))
            | Some l' :: more' =>
                scan more' (in_sel i) (in_fam i) l' (l_setFds (l_setPort s1 (in_sel i)) (l_fds s1 ++ [fd]))
            end
        else scan more port bound r (l_setFds s1 (l_fds s1 ++ [fd]))) by (destruct more; reflexivity).
  rewrite U in E. clear U.
  destruct (in_fam i =? bound); [exact (IH _ Hp Nr E)|].
  assert (M : match in_name i with Some p => negb (p =? port) | None => false end = false).
  { destruct (in_name i) as [p|] eqn:Q; [|reflexivity]. rewrite (N i p (or_introl eq_refl) Q), Z.eqb_refl. reflexivity. }
  rewrite M in E. destruct (listenInternal i port s) as [fd s1].
  destruct (fd <? 0); [exact (IH _ Hp Nr E)|].
  apply Z.eqb_neq in Hp. rewrite Hp in E. apply Z.eqb_neq in Hp. exact (IH _ Hp Nr E).
Qed.
(** Names tell the port that was asked for, on the way and behind the selection. *)
Lemma scan_free_ok more : forall l s, all_sane l -> names_right 0 l ->
  (forall i l', selected l more = Some (i, l') -> names_right (in_sel i) l') -> scan more 0 AF_UNSPEC l s <> Crash.
Proof.
  induction more as [|m more IHm]; induction l as [|i r IH]; intros s A N S E; try discriminate E;
    assert (Ar : all_sane r) by (intros x H; apply A; now right);
    assert (Ai : info_sane i) by (apply A; now left);
    assert (Nr : names_right 0 r) by (intros x p H; apply N; now right);
    assert (M : match in_name i with Some p => negb (p =? 0) | None => false end = false)
      by (destruct (in_name i) as [p|] eqn:Q; [|reflexivity]; rewrite (N i p (or_introl eq_refl) Q); reflexivity);
    assert (B : (in_fam i =? AF_UNSPEC) = false) by (apply Z.eqb_neq, Ai).
  - cbn [scan] in E. rewrite B, M in E.
    destruct (internal_cases i 0 s Ai) as [(Us & s1 & L & _)|(Us & Hf & L)]; rewrite L in E.
    + cbn [Z.ltb Z.compare] in E. apply (IH s1 Ar Nr) in E; [exact E|].
      intros j l' Q. apply S. cbn [selected]. now rewrite Us.
    + assert (Lt : (in_fd i <? 0) = false) by (apply Z.ltb_ge; lia). rewrite Lt in E. cbn [Z.eqb] in E.
      destruct (in_ask i) eqn:K; cbn [negb] in E; [discriminate E|].
      eapply (IH _ Ar Nr); [|exact E]. intros j l' Q. apply S. cbn [selected]. now rewrite Us, K.
  - change (scan (m :: more) 0 AF_UNSPEC (i :: r) s) with
      (if in_fam i =? AF_UNSPEC then scan (m :: more) 0 AF_UNSPEC r s
      else if match in_name i with Some p => negb (p =? 0) | None => false end then Crash
      else
        let '(fd, s1) := listenInternal i 0 s in
        if fd <? 0 then scan (m :: more) 0 AF_UNSPEC r s1
        else if 0 =? 0 then
          if negb (in_ask i) then scan (m :: more) 0 AF_UNSPEC r (l_say s1 (LClose fd))
          else
            match m with
            | None | Some [] => scan more 0 AF_UNSPEC r (l_say s1 (LClose fd))
            | Some l' =>
                scan more (in_sel i) (in_fam i) l' (l_setFds (l_setPort s1 (in_sel i)) (l_fds s1 ++ [fd]))
            end
        else scan (m :: more) 0 AF_UNSPEC r (l_setFds s1 (l_fds s1 ++ [fd]))) in E.
    rewrite B, M in E.
    destruct (internal_cases i 0 s Ai) as [(Us & s1 & L & _)|(Us & Hf & L)]; rewrite L in E.
    + cbn [Z.ltb Z.compare] in E. apply (IH s1 Ar Nr) in E; [exact E|].
      intros j l' Q. apply S. cbn [selected]. now rewrite Us.
    + assert (Lt : (in_fd i <? 0) = false) by (apply Z.ltb_ge; lia). rewrite Lt in E. cbn [Z.eqb] in E.
      destruct (in_ask i) eqn:K; cbn [negb] in E.
      2:{ eapply (IH _ Ar Nr); [|exact E]. intros j l' Q. apply S. cbn [selected]. now rewrite Us, K. }
      destruct m as [[|x l']|].
      * eapply (IHm r _ Ar Nr); [|exact E]. intros j l' Q. apply S. cbn [selected]. now rewrite Us, K.
      * destruct Ai as (_ & _ & Hs). refine (scan_port_ok more (in_sel i) (in_fam i) (x :: l') _ _ _ E); [lia|].
        apply S. cbn [selected]. now rewrite Us, K.
      * eapply (IHm r _ Ar Nr); [|exact E]. intros j l' Q. apply S. cbn [selected]. now rewrite Us, K.
Qed.
Lemma listen_ok o looks s : looks_sane looks -> honest o s looks -> listen o looks s <> Crash.
Proof.
  intros M H E. unfold listen in E. destruct (l_fds s) eqn:F; [|discriminate E].
  destruct looks as [|[l|] more]; try discriminate E. destruct H as [H1 H2].
  set (port := if lo_static o then l_port s else 0) in *.
  assert (Al : all_sane l) by (intros i Hi; apply (M l i); [now left|exact Hi]).
  destruct (scan more port AF_UNSPEC l s) as [[s'|]| |] eqn:S; try discriminate E. clear E.
  destruct (Z.eq_dec port 0) as [P|P].
  - rewrite P in *. exact (scan_free_ok more l s Al H1 (H2 eq_refl) S).
  - exact (scan_port_ok more port AF_UNSPEC l s P H1 S).
Qed.
Lemma accept_ok o looks timeout tryCur polls acc s : looks_sane looks -> honest o s looks -> linv s -> 0 < timeout ->
  acceptNextConnection o looks timeout tryCur polls acc s <> Crash.
Proof.
  intros M H LI T E. unfold acceptNextConnection in E.
  destruct (listen o looks s) as [[[code s1]|]| |] eqn:L; cbn [obind] in E; try discriminate E.
  - destruct (listen_linv o looks s code s1 M LI L) as (LI1 & C1 & K1 & I1 & N1).
    destruct (negb (code =? OK)) eqn:C; [discriminate E|].
    apply negb_false_iff, Z.eqb_eq in C. apply K1 in C.
    destruct (l_fds s1) as [|f0 fr] eqn:F; [contradiction|].
    assert (G : (timeout <=? 0) = false) by (apply Z.leb_gt; lia). rewrite G in E.
    destruct (acc_wait o timeout 0 polls s1) as [[[c|ready] s2]|] eqn:W; try discriminate E.
    cbv zeta in E. destruct (acc_pick _ _ _ ready) as [[found idx]| |] eqn:P; cbn [obind] in E; try discriminate E.
    + destruct found; cbn [negb] in E; [|discriminate E]. destruct (acc <? 0); discriminate E.
    + clear -P. revert P. generalize (length (l_fds s2)) as k. generalize (zlen (l_fds s2)) as n.
      intros n k. generalize (acc_start n (l_idx s2) tryCur) as i. induction k as [|k IH]; intros i P; [discriminate P|].
      cbn in P. destruct ((i <? 0) || (n <=? i)); [discriminate P|]. destruct (nth (Z.to_nat i) ready false); [discriminate P|].
      exact (IH _ P).
  - exact (listen_ok o looks s M H L).
Qed.
Lemma accept_no_time o looks timeout tryCur polls acc s : l_fds s <> [] -> timeout <= 0 ->
  acceptNextConnection o looks timeout tryCur polls acc s = Crash.
Proof.
  intros F T. unfold acceptNextConnection, listen. destruct (l_fds s) as [|f0 fr] eqn:E; [contradiction|].
  cbn [obind]. change (negb (OK =? OK)) with false. cbv iota. rewrite E.
  assert (G : (timeout <=? 0) = true) by now apply Z.leb_le. now rewrite G.
Qed.
Lemma next_timeout_ok window rd wr : 0 < window -> rd + 1000 < 2 ^ 31 -> wr + 1000 < 2 ^ 31 -> 0 < next_timeout window rd wr.
Proof.
  intros Hw Hr Hx. unfold next_timeout. destruct (0 <? rd) eqn:R; [|exact Hw]. apply Z.ltb_lt in R.
  unfold to_i32. rewrite Z.mod_small; lia.
Qed.
Lemma next_timeout_bad : exists rd wr, in_i32 rd /\ in_i32 wr /\ 0 < rd /\ next_timeout 120000 rd wr <= 0.
Proof. exists (2 ^ 31 - 1), 5000. unfold in_i32. repeat split; vm_compute; congruence. Qed.

(** ** A connection that arrives is found *)
Lemma wait_arrives o timeout d ready n : forall t s, 0 <= t <= d -> t < timeout ->
  Z.min d timeout - t <= Z.of_nat n * (if 0 <? lo_abort o then lo_abort o else timeout) ->
  exists s', acc_wait o timeout t (arrives o timeout d ready (S n) t) s
    = Some (if d <=? timeout then inr ready else inl CONN_ERROR, s')
    /\ l_now s' = l_now s + (Z.min d timeout - t).
Proof.
  assert (Pc : forall t, 0 <= t < timeout -> 0 < piece o timeout t <= timeout - t).
  { intros t Ht. unfold piece. destruct (0 <? lo_abort o) eqn:A; [apply Z.ltb_lt in A|]; lia. }
  assert (One : forall t s r, 0 <= t <= d -> t < timeout -> d - t <= piece o timeout t ->
    exists s', acc_wait o timeout t ({| lp_poll := {| po_abort := false; po_after := d - t; po_res := 1; po_intr := false |}; lp_ready := ready |} :: r) s
      = Some (if d <=? timeout then inr ready else inl CONN_ERROR, s') /\ l_now s' = l_now s + (Z.min d timeout - t)).
  { intros t s r Ht Hc G. cbn [acc_wait lp_poll po_abort lp_ready].
    assert (L : (timeout <=? t) = false) by (apply Z.leb_gt; lia). rewrite L, andb_false_r.
    fold (piece o timeout t). specialize (Pc t ltac:(lia)). unfold poll. cbn [po_after po_res po_intr].
    assert (M : (piece o timeout t <? 0) = false) by (apply Z.ltb_ge; lia). rewrite M. cbn [orb].
    assert (G1 : (d - t <=? piece o timeout t) = true) by now apply Z.leb_le. rewrite G1. cbn [Z.ltb Z.compare].
    assert (Q : (d <=? timeout) = true) by (apply Z.leb_le; lia). rewrite Q. eexists; split; [reflexivity|]. cbn. lia. }
  induction n as [|n IH]; intros t s Ht Hc Hn.
  - assert (t = d) by lia. apply One; [lia|lia|]. specialize (Pc t ltac:(lia)). lia.
  - destruct (Z_le_gt_dec (d - t) (piece o timeout t)) as [G|G]; [now apply One|].
    change (arrives o timeout d ready (S (S n)) t)
      with ({| lp_poll := {| po_abort := false; po_after := d - t; po_res := 1; po_intr := false |}; lp_ready := ready |}
        :: arrives o timeout d ready (S n) (Z.min d (t + piece o timeout t))).
    cbn [acc_wait lp_poll po_abort lp_ready].
    assert (L : (timeout <=? t) = false) by (apply Z.leb_gt; lia). rewrite L, andb_false_r.
    fold (piece o timeout t). pose proof (Pc t ltac:(lia)) as Pt. unfold poll. cbn [po_after po_res po_intr].
    assert (M : (piece o timeout t <? 0) = false) by (apply Z.ltb_ge; lia). rewrite M. cbn [orb].
    assert (G1 : (d - t <=? piece o timeout t) = false) by (apply Z.leb_gt; lia). rewrite G1. cbn [Z.ltb Z.compare Z.eqb orb].
    replace (Z.min d (t + piece o timeout t)) with (t + piece o timeout t) by lia.
    destruct (Z_lt_le_dec (t + piece o timeout t) timeout) as [Lt|Le].
    + destruct (IH (t + piece o timeout t) (l_pass s (piece o timeout t)) ltac:(lia) Lt) as (s' & E & N).
      { rewrite Nat2Z.inj_succ, Z.mul_succ_l in Hn. unfold piece in *. destruct (0 <? lo_abort o); lia. }
      exists s'. split; [exact E|]. rewrite N. cbn. lia.
    + cbn [acc_wait arrives].
      assert (L2 : (timeout <=? t + piece o timeout t) = true) by (apply Z.leb_le; lia). rewrite L2.
      assert (Q : (d <=? timeout) = false) by (apply Z.leb_gt; lia). rewrite Q.
      eexists; split; [reflexivity|]. cbn. lia.
Qed.

Lemma peer_timeout : exists rd wr, in_i32 rd /\ in_i32 wr /\ 0 < rd /\
  forall o looks tryCur polls acc s, l_fds s <> [] ->
    acceptNextConnection o looks (next_timeout 120000 rd wr) tryCur polls acc s = Crash.
Proof.
  destruct next_timeout_bad as (rd & wr & A & B & C & D). exists rd, wr. split; [exact A|]. split; [exact B|]. split; [exact C|].
  intros. now apply accept_no_time.
Qed.
Lemma life_checks o looks timeout tryCur polls acc port l s :
  0 <= port -> Forall op_sane l -> l_run o (l_new port) l = Ret (Some s) ->
  looks_sane looks -> honest o s looks -> 0 < timeout ->
  acceptNextConnection o looks timeout tryCur polls acc s <> Crash.
Proof.
  intros H F E M Ho T. apply accept_ok; try assumption. exact (run_linv o l _ _ F (new_linv port H) E).
Qed.
Lemma listen_addresses o l more s code s' :
  l_fds s = [] -> 0 <= l_port s -> looks_sane (Some l :: more) ->
  listen o (Some l :: more) s = Ret (Some (code, s')) ->
  let want := listens (if lo_static o then l_port s else 0) l more in
  l_fds s' = snd want /\ l_port s' = (if l_fds s' then l_port s else fst want)
  /\ code = (if l_fds s' then CONN_ERROR_RETRYABLE else OK).
Proof. intros A B C D. exact (proj2 (proj2 (listen_sound o (Some l :: more) s code s' A B C D))). Qed.
