(** What a server socket does: descriptors, the addresses it listens on, the index. *)
From Coq Require Import Lia.
From Verif Require Import Model.Bytes Model.Connect Model.Listen Spec.ListenSpec.

(** ** Traces *)
Lemma replay_app live l m :
  replay live (l ++ m) = match replay live l with Good live' => replay live' m | v => v end.
Proof.
  revert live; induction l as [|e l IH]; intros live; [reflexivity|].
  cbn. destruct (step live e); [apply IH|reflexivity|reflexivity].
Qed.
(** [state tr f]: the trace is right and leaves the table [f]. *)
Definition state (tr : list lev) (f : table) : Prop :=
  match replay (fun _ => None) tr with
  | Good live => forall fd, live fd = f fd
  | Odd => True
  | Bad => False
  end.
Lemma state_ext tr f g : state tr f -> (forall x, f x = g x) -> state tr g.
Proof.
  unfold state. destruct (replay (fun _ => None) tr); intros H E; [|exact H|exact H].
  intros fd. now rewrite H.
Qed.
Lemma state_open tr f fd : state tr f -> f fd = None \/ True -> state (tr ++ [LOpen fd]) (put f fd (Some (-1))).
Proof.
  unfold state. rewrite replay_app. destruct (replay (fun _ => None) tr) as [live| |]; intros H _; [|exact I|exact H].
  cbn. destruct (live fd); [exact I|]. intros x. unfold put. destruct (x =? fd); [reflexivity|apply H].
Qed.
Lemma state_bound tr f fd p v : state tr f -> f fd = Some v -> state (tr ++ [LBound fd p]) (put f fd (Some p)).
Proof.
  unfold state. rewrite replay_app. destruct (replay (fun _ => None) tr) as [live| |]; intros H E; [|exact I|exact H].
  cbn. rewrite H, E. intros x. unfold put. destruct (x =? fd); [reflexivity|apply H].
Qed.
Lemma state_close tr f fd v : state tr f -> f fd = Some v -> state (tr ++ [LClose fd]) (put f fd None).
Proof.
  unfold state. rewrite replay_app. destruct (replay (fun _ => None) tr) as [live| |]; intros H E; [|exact I|exact H].
  cbn. rewrite H, E. intros x. unfold put. destruct (x =? fd); [reflexivity|apply H].
Qed.
Lemma state_accept tr f from p fd : state tr f -> f from = Some p -> p <> -1 ->
  state (tr ++ [LAccept from fd]) (put f fd (Some (-1))).
Proof.
  unfold state. rewrite replay_app. destruct (replay (fun _ => None) tr) as [live| |]; intros H E N; [|exact I|exact H].
  cbn. rewrite H, E. apply Z.eqb_neq in N. rewrite N. destruct (live fd); [exact I|].
  intros x. unfold put. destruct (x =? fd); [reflexivity|apply H].
Qed.
(** Once the system was at fault, anything goes. *)
Definition odd (tr : list lev) : Prop := replay (fun _ => None) tr = Odd.
Lemma odd_app tr l : odd tr -> odd (tr ++ l).
Proof. unfold odd. intros H. now rewrite replay_app, H. Qed.
Lemma odd_state tr f : odd tr -> state tr f.
Proof. unfold odd, state. now intros ->. Qed.
Lemma open_fresh tr f fd : state tr f -> f fd <> None -> odd (tr ++ [LOpen fd]).
Proof.
  unfold state, odd. rewrite replay_app. destruct (replay (fun _ => None) tr) as [live| |]; intros H E; [|reflexivity|contradiction].
  cbn. rewrite H. destruct (f fd); [reflexivity|contradiction].
Qed.
Lemma accept_fresh tr f from p fd : state tr f -> f from = Some p -> p <> -1 -> f fd <> None -> odd (tr ++ [LAccept from fd]).
Proof.
  unfold state, odd. rewrite replay_app. destruct (replay (fun _ => None) tr) as [live| |]; intros H E N F; [|reflexivity|contradiction].
  cbn. rewrite !H, E. apply Z.eqb_neq in N. rewrite N. destruct (f fd); [reflexivity|contradiction].
Qed.

(** ** The invariant *)
(** Listening descriptors are different, non-negative, and none is the connection. *)
Definition wf (s : lst) : Prop :=
  0 <= l_port s /\ NoDup (l_fds s) /\ Forall (fun fd => 0 <= fd) (l_fds s) /\ ~ In (l_conn s) (l_fds s).
Definition inv (s : lst) : Prop :=
  odd (l_tr s) \/ (state (l_tr s) (expected s) /\ wf s).

Lemma inv_accounted s : inv s -> accounted s.
Proof. intros [H|[H _]]; [apply odd_state; exact H|exact H]. Qed.

Lemma existsb_in fd l : existsb (Z.eqb fd) l = true <-> In fd l.
Proof.
  rewrite existsb_exists. split.
  - intros [x [H E]]. apply Z.eqb_eq in E. now subst.
  - intros H. exists fd. split; [exact H|apply Z.eqb_refl].
Qed.
Lemma existsb_out fd l : existsb (Z.eqb fd) l = false <-> ~ In fd l.
Proof. rewrite <- existsb_in. destruct (existsb (Z.eqb fd) l); split; congruence. Qed.

Lemma expected_none s fd : ~ In fd (l_fds s) -> (fd = l_conn s -> fd < 0) -> expected s fd = None.
Proof.
  intros A B. unfold expected. apply existsb_out in A. rewrite A.
  destruct (fd =? l_conn s) eqn:E; [|reflexivity]. apply Z.eqb_eq in E. specialize (B E).
  assert (L : (0 <=? fd) = false) by (apply Z.leb_gt; lia). now rewrite L.
Qed.

Lemma NoDup_snoc (l : list Z) x : NoDup l -> ~ In x l -> NoDup (l ++ [x]).
Proof.
  induction l as [|a l IH]; intros H N; [constructor; [intros []|constructor]|].
  inversion H as [|? ? Ha Hl]; subst. cbn. constructor.
  - intros X. apply in_app_or in X. destruct X as [X|[X|[]]]; [exact (Ha X)|subst; apply N; now left].
  - apply IH; [exact Hl|intros X; apply N; now right].
Qed.

(** A socket that was tried and closed leaves nothing. *)
Lemma tried s fd : inv s -> inv (l_say (l_say s (LOpen fd)) (LClose fd)).
Proof.
  intros [H|[H W]]; [left; cbn; now apply odd_app, odd_app|].
  destruct (expected s fd) eqn:E.
  - left. cbn. apply odd_app. apply (open_fresh _ _ _ H). now rewrite E.
  - right. split; [|exact W]. cbn [l_tr l_say].
    eapply state_ext; [eapply state_close; [apply state_open; [exact H|now right]|unfold put; now rewrite Z.eqb_refl]|].
    intros x. unfold put. destruct (x =? fd) eqn:X; [|reflexivity]. apply Z.eqb_eq in X. subst x. symmetry. exact E.
Qed.
Lemma tried_bound s fd p : inv s -> inv (l_say (l_say (l_say s (LOpen fd)) (LBound fd p)) (LClose fd)).
Proof.
  intros [H|[H W]]; [left; cbn; now apply odd_app, odd_app, odd_app|].
  destruct (expected s fd) eqn:E.
  - left. cbn. apply odd_app, odd_app. apply (open_fresh _ _ _ H). now rewrite E.
  - right. split; [|exact W]. cbn [l_tr l_say].
    eapply state_ext.
    + eapply state_close; [eapply state_bound; [apply state_open; [exact H|now right]|unfold put; now rewrite Z.eqb_refl]|].
      unfold put. now rewrite Z.eqb_refl.
    + intros x. unfold put. destruct (x =? fd) eqn:X; [|reflexivity]. apply Z.eqb_eq in X. subst x. symmetry. exact E.
Qed.
(** One that is kept belongs to the listening ones. *)
Lemma kept s fd p : inv s -> 0 <= fd -> 0 <= p -> l_fds s = [] \/ l_port s = p ->
  inv (l_setFds (l_setPort (l_say (l_say s (LOpen fd)) (LBound fd p)) p) (l_fds s ++ [fd])).
Proof.
  intros [H|[H W]] Hf Hp P; [left; cbn; now apply odd_app, odd_app|].
  destruct (expected s fd) eqn:E.
  - left. cbn. apply odd_app. apply (open_fresh _ _ _ H). now rewrite E.
  - right. destruct W as (W0 & W1 & W2 & W3).
    assert (N : ~ In fd (l_fds s)).
    { apply existsb_out. unfold expected in E. destruct (existsb (Z.eqb fd) (l_fds s)); [discriminate E|reflexivity]. }
    assert (C : fd <> l_conn s).
    { intros ->. unfold expected in E. apply existsb_out in N. rewrite N, Z.eqb_refl in E.
      assert (L : (0 <=? l_conn s) = true) by (apply Z.leb_le; lia). rewrite L in E. discriminate E. }
    split.
    + cbn [l_tr l_say l_setFds l_setPort].
      eapply state_ext; [eapply state_bound; [apply state_open; [exact H|now right]|unfold put; now rewrite Z.eqb_refl]|].
      intros x. unfold put, expected. cbn [l_fds l_setFds l_port l_setPort l_conn l_say].
      rewrite existsb_app. cbn [existsb]. rewrite orb_false_r.
      destruct (x =? fd) eqn:X.
      * now rewrite orb_true_r.
      * rewrite orb_false_r. destruct (existsb (Z.eqb x) (l_fds s)) eqn:F; [|reflexivity].
        destruct P as [P|P]; [rewrite P in F; discriminate F|now rewrite P].
    + split; [|split; [|split]]; cbn [l_fds l_setFds l_port l_setPort l_conn l_say].
      * exact Hp.
      * apply NoDup_snoc; assumption.
      * apply Forall_app. split; [exact W2|]. constructor; [exact Hf|constructor].
      * intros X. apply in_app_or in X. destruct X as [X|[X|[]]]; [exact (W3 X)|exact (C X)].
Qed.

(** ** Listening *)
Definition same (s s' : lst) : Prop := l_conn s' = l_conn s /\ l_idx s' = l_idx s /\ l_now s' = l_now s.

(** What is tried with an address: nothing is left, or it is bound. *)
Lemma internal_cases i port s : info_sane i ->
  (usable i = false /\ exists s1, listenInternal i port s = (-1, s1) /\ (inv s -> inv s1) /\ l_fds s1 = l_fds s
     /\ l_port s1 = l_port s /\ same s s1)
  \/ (usable i = true /\ 0 <= in_fd i /\ listenInternal i port s
       = (in_fd i, l_say (l_say s (LOpen (in_fd i))) (LBound (in_fd i) (if port =? 0 then in_sel i else port)))).
Proof.
  intros (Hf & _ & _). unfold listenInternal, usable.
  destruct (in_fd i =? -1) eqn:F; cbn [negb andb].
  { left. split; [reflexivity|]. exists s. repeat split. tauto. }
  apply Z.eqb_neq in F.
  destruct (in_bind i); cbn [negb andb].
  2:{ left. split; [reflexivity|]. eexists. split; [reflexivity|]. repeat split. intros H. now apply tried. }
  destruct (in_listen i); cbn [negb andb].
  - right. repeat split. lia.
  - left. split; [reflexivity|]. eexists. split; [reflexivity|]. repeat split. intros H. now apply tried_bound.
Qed.

Definition all_sane (l : list info) : Prop := forall i, In i l -> info_sane i.

(** With a port. *)
Lemma scan_port more port bound l : forall s s', port <> 0 -> l_port s = port -> 0 <= port -> all_sane l ->
  scan more port bound l s = Ret (Some s') ->
  (inv s -> inv s') /\ l_port s' = port /\ l_fds s' = l_fds s ++ others bound l /\ same s s'.
Proof.
  induction l as [|i r IH]; intros s s' Hp Hs H0 A E.
  - destruct more; injection E as <-; unfold others; cbn; rewrite app_nil_r; repeat split; auto.
  - assert (Ar : all_sane r) by (intros x H; apply A; now right).
    assert (Ai : info_sane i) by (apply A; now left).
    assert (U : scan more port bound (i :: r) s =
      if in_fam i =? bound then scan more port bound r s
      else if match in_name i with Some p => negb (p =? port) | None => false end then Crash
      else
        let '(fd, s1) := listenInternal i port s in
        if fd <? 0 then scan more port bound r s1
        else if port =? 0 then
          if negb (in_ask i) then scan more port bound r (l_say s1 (LClose fd))
          else
            match more with
            | [] => Ret None
            | None :: more' | Some [] :: more' => scan more' port bound r (l_say s1 (LClose fd))
            | Some l' :: more' =>
                scan more' (in_sel i) (in_fam i) l' (l_setFds (l_setPort s1 (in_sel i)) (l_fds s1 ++ [fd]))
            end
        else scan more port bound r (l_setFds s1 (l_fds s1 ++ [fd]))) by (destruct more; reflexivity).
    rewrite U in E. clear U.
    assert (O : others bound (i :: r) = (if usable i && negb (in_fam i =? bound) then [in_fd i] else []) ++ others bound r).
    { unfold others. cbn [filter]. destruct (usable i && negb (in_fam i =? bound)); reflexivity. }
    rewrite O. destruct (in_fam i =? bound) eqn:B.
    { rewrite andb_false_r. cbn [app]. apply IH; assumption. }
    destruct (match in_name i with Some p => negb (p =? port) | None => false end); [discriminate E|].
    cbn [negb]. rewrite andb_true_r.
    destruct (internal_cases i port s Ai) as [(Us & s1 & L & Iv & F1 & P1 & S1)|(Us & Hf & L)]; rewrite L in E; rewrite Us.
    + cbn [Z.ltb Z.compare] in E. cbn [app].
      destruct (IH s1 s' Hp (eq_trans P1 Hs) H0 Ar E) as (J1 & J2 & J3 & J4).
      split; [auto|]. split; [exact J2|]. split; [now rewrite J3, F1|].
      destruct S1 as (? & ? & ?), J4 as (? & ? & ?). repeat split; congruence.
    + assert (Lt : (in_fd i <? 0) = false) by (apply Z.ltb_ge; lia). rewrite Lt in E.
      assert (Pz : (port =? 0) = false) by now apply Z.eqb_neq. rewrite Pz in E.
      set (s1 := l_setFds _ _) in E.
      assert (S1 : inv s -> inv s1).
      { intros I. pose proof (kept s (in_fd i) port I Hf H0 (or_intror Hs)) as K.
        unfold s1. cbn in K |- *. unfold l_setFds, l_setPort, l_say in *. cbn in *. now rewrite Hs. }
      destruct (IH s1 s' Hp Hs H0 Ar E) as (J1 & J2 & J3 & J4).
      split; [auto|]. split; [exact J2|]. split; [rewrite J3; cbn; now rewrite <- app_assoc|].
      destruct J4 as (? & ? & ?). repeat split; cbn in *; congruence.
Qed.

(** Without one. *)
Lemma scan_free more : forall l s s', l_fds s = [] -> all_sane l -> looks_sane more ->
  scan more 0 AF_UNSPEC l s = Ret (Some s') ->
  (inv s -> inv s') /\ same s s' /\
  match selected l more with
  | Some (i, l') => l_port s' = in_sel i /\ l_fds s' = in_fd i :: others (in_fam i) l'
  | None => l_port s' = l_port s /\ l_fds s' = []
  end.
Proof.
  induction more as [|m more IHm]; induction l as [|i r IH]; intros s s' Hs A M E.
  - injection E as <-. repeat split; auto.
  - assert (Ar : all_sane r) by (intros x H; apply A; now right).
    assert (Ai : info_sane i) by (apply A; now left).
    cbn [scan] in E.
    assert (B : (in_fam i =? AF_UNSPEC) = false) by (apply Z.eqb_neq, Ai). rewrite B in E.
    destruct (match in_name i with Some p => negb (p =? 0) | None => false end); [discriminate E|].
    destruct (internal_cases i 0 s Ai) as [(Us & s1 & L & Iv & F1 & P1 & S1)|(Us & Hf & L)]; rewrite L in E;
      cbn [selected]; rewrite Us; cbn [andb].
    + cbn [Z.ltb Z.compare] in E.
      destruct (IH s1 s' (eq_trans F1 Hs) Ar M E) as (J1 & J2 & J3).
      split; [auto|]. split; [destruct S1 as (? & ? & ?), J2 as (? & ? & ?); repeat split; congruence|].
      destruct (selected r []) as [[? ?]|]; [exact J3|]. destruct J3 as [J3 J4]. split; [congruence|exact J4].
    + assert (Lt : (in_fd i <? 0) = false) by (apply Z.ltb_ge; lia). rewrite Lt in E. cbn [Z.eqb] in E.
      destruct (in_ask i); cbn [negb] in E; [discriminate E|].
      set (s1 := l_say _ _) in E.
      destruct (IH s1 s' Hs Ar M E) as (J1 & J2 & J3).
      split; [intros I; apply J1; now apply tried_bound|]. split; [exact J2|exact J3].
  - injection E as <-. cbn [selected]. repeat split; auto.
  - assert (Ar : all_sane r) by (intros x H; apply A; now right).
    assert (Ai : info_sane i) by (apply A; now left).
    assert (Mr : looks_sane more) by (intros l0 x H1 H2; apply (M l0 x); [now right|exact H2]).
    change (scan (m :: more) 0 AF_UNSPEC (i :: r) s) with
      (if in_fam i =? AF_UNSPEC then scan (m :: more) 0 AF_UNSPEC r s
      else if match in_name i with Some p => negb (p =? 0) | None => false end then Crash
      else
        let '(fd, s1) := listenInternal i 0 s in
        if fd <? 0 then scan (m :: more) 0 AF_UNSPEC r s1
        else if 0 =? 0 then
          if negb (in_ask i) then scan (m :: more) 0 AF_UNSPEC r (l_say s1 (LClose fd))
          else
            match m with
            | None | Some [] => scan more 0 AF_UNSPEC r (l_say s1 (LClose fd))
            | Some l' =>
                scan more (in_sel i) (in_fam i) l' (l_setFds (l_setPort s1 (in_sel i)) (l_fds s1 ++ [fd]))
            end
        else scan (m :: more) 0 AF_UNSPEC r (l_setFds s1 (l_fds s1 ++ [fd]))) in E.
    assert (B : (in_fam i =? AF_UNSPEC) = false) by (apply Z.eqb_neq, Ai). rewrite B in E.
    destruct (match in_name i with Some p => negb (p =? 0) | None => false end); [discriminate E|].
    destruct (internal_cases i 0 s Ai) as [(Us & s1 & L & Iv & F1 & P1 & S1)|(Us & Hf & L)]; rewrite L in E;
      cbn [selected]; rewrite Us; cbn [andb].
    + cbn [Z.ltb Z.compare] in E.
      destruct (IH s1 s' (eq_trans F1 Hs) Ar M E) as (J1 & J2 & J3).
      split; [auto|]. split; [destruct S1 as (? & ? & ?), J2 as (? & ? & ?); repeat split; congruence|].
      destruct (selected r (m :: more)) as [[? ?]|]; [exact J3|]. destruct J3 as [J3 J4]. split; [congruence|exact J4].
    + assert (Lt : (in_fd i <? 0) = false) by (apply Z.ltb_ge; lia). rewrite Lt in E. cbn [Z.eqb] in E.
      destruct (in_ask i); cbn [negb] in E.
      2:{ set (s1 := l_say _ _) in E.
          destruct (IH s1 s' Hs Ar M E) as (J1 & J2 & J3).
          split; [intros I; apply J1; now apply tried_bound|]. split; [exact J2|exact J3]. }
      destruct m as [[|x l']|].
      * set (s1 := l_say _ _) in E.
        destruct (IHm r s1 s' Hs Ar Mr E) as (J1 & J2 & J3).
        split; [intros I; apply J1; now apply tried_bound|]. split; [exact J2|exact J3].
      * set (s1 := l_setFds _ _) in E.
        destruct Ai as (_ & _ & Hsel).
        assert (Al : all_sane (x :: l')) by (intros y Hy; apply (M (x :: l') y); [now left|exact Hy]).
        destruct (scan_port more (in_sel i) (in_fam i) (x :: l') s1 s' ltac:(lia) eq_refl ltac:(lia) Al E) as (J1 & J2 & J3 & J4).
        split; [intros I; apply J1; apply (kept s (in_fd i) (in_sel i) I Hf ltac:(lia)); now left|].
        split; [exact J4|]. split; [exact J2|]. rewrite J3. cbn. now rewrite Hs.
      * set (s1 := l_say _ _) in E.
        destruct (IHm r s1 s' Hs Ar Mr E) as (J1 & J2 & J3).
        split; [intros I; apply J1; now apply tried_bound|]. split; [exact J2|exact J3].
Qed.

Lemma listen_sound o looks s code s' : l_fds s = [] -> 0 <= l_port s -> looks_sane looks ->
  listen o looks s = Ret (Some (code, s')) ->
  (inv s -> inv s') /\ same s s' /\
  match looks with
  | Some l :: more =>
      let port := if lo_static o then l_port s else 0 in
      l_fds s' = snd (listens port l more)
      /\ l_port s' = (if l_fds s' then l_port s else fst (listens port l more))
      /\ code = (if l_fds s' then CONN_ERROR_RETRYABLE else OK)
  | _ => s' = s /\ code = CONN_ERROR
  end.
Proof.
  intros Hs Hp M E. unfold listen in E. rewrite Hs in E.
  destruct looks as [|[l|] more]; [discriminate E| |injection E as <- <-; repeat split; auto].
  set (port := if lo_static o then l_port s else 0) in *.
  destruct (scan more port AF_UNSPEC l s) as [[s1|]| |] eqn:S; try discriminate E. cbn in E. injection E as <- <-.
  assert (Al : all_sane l) by (intros i Hi; apply (M l i); [now left|exact Hi]).
  assert (Mr : looks_sane more) by (intros l0 x H1 H2; apply (M l0 x); [now right|exact H2]).
  unfold listens. destruct (port =? 0) eqn:P.
  - apply Z.eqb_eq in P. rewrite P in S.
    destruct (scan_free more l s s1 Hs Al Mr S) as (J1 & J2 & J3).
    split; [exact J1|]. split; [exact J2|]. cbv zeta.
    destruct (selected l more) as [[i l']|].
    + destruct J3 as [J3 J4]. rewrite J4, J3. cbn. auto.
    + destruct J3 as [J3 J4]. rewrite J4, J3. cbn. auto.
  - apply Z.eqb_neq in P.
    assert (Ps : l_port s = port) by (unfold port in *; destruct (lo_static o); [reflexivity|contradiction]).
    destruct (scan_port more port AF_UNSPEC l s s1 P Ps ltac:(lia) Al S) as (J1 & J2 & J3 & J4).
    split; [exact J1|]. split; [exact J4|]. cbn [fst snd]. rewrite Hs in J3. cbn in J3.
    split; [exact J3|]. split; [destruct (l_fds s1); congruence|destruct (l_fds s1); reflexivity].
Qed.

(** ** Accepting *)
Lemma wait_state o timeout l : forall t s r s', acc_wait o timeout t l s = Some (r, s') ->
  l_fds s' = l_fds s /\ l_port s' = l_port s /\ l_conn s' = l_conn s /\ l_idx s' = l_idx s /\ l_tr s' = l_tr s.
Proof.
  induction l as [|p r IH]; intros t s x s' E; [discriminate E|]. cbn in E.
  destruct (timeout <=? t); [injection E as <- <-; auto|].
  destruct ((0 <? lo_abort o) && po_abort (lp_poll p)); [injection E as <- <-; auto|].
  destruct (poll _ (lp_poll p)) as [res dt].
  destruct (0 <? res); [injection E as <- <-; auto|].
  destruct (po_intr (lp_poll p) || (res =? 0)); [|injection E as <- <-; auto].
  apply IH in E. exact E.
Qed.
Lemma wait_time o timeout l : forall t s r s', 0 <= t <= timeout -> Forall (fun p => 0 <= po_after (lp_poll p)) l ->
  acc_wait o timeout t l s = Some (r, s') -> l_now s <= l_now s' <= l_now s + (timeout - t).
Proof.
  induction l as [|p r IH]; intros t s x s' Ht F E; [discriminate E|]. cbn in E.
  inversion F as [|? ? Fp Fr]; subst.
  destruct (timeout <=? t) eqn:T; [injection E as <- <-; lia|]. apply Z.leb_gt in T.
  destruct ((0 <? lo_abort o) && po_abort (lp_poll p)); [injection E as <- <-; lia|].
  set (m := if 0 <? lo_abort o then Z.min (timeout - t) (lo_abort o) else timeout - t) in *.
  assert (Hm : 0 < m <= timeout - t) by (unfold m; destruct (0 <? lo_abort o) eqn:A; [apply Z.ltb_lt in A|]; lia).
  assert (D : 0 <= snd (poll m (lp_poll p)) <= m).
  { unfold poll. assert (M : (m <? 0) = false) by (apply Z.ltb_ge; lia). rewrite M. cbn [orb].
    destruct (po_after (lp_poll p) <=? m) eqn:G; cbn [snd]; [apply Z.leb_le in G|]; lia. }
  destruct (poll m (lp_poll p)) as [res dt]. cbn [snd] in D.
  destruct (0 <? res); [injection E as <- <-; cbn; lia|].
  destruct (po_intr (lp_poll p) || (res =? 0)); [|injection E as <- <-; cbn; lia].
  apply IH in E; [cbn in E; lia|lia|exact Fr].
Qed.
Lemma wait_ready o timeout l : forall t s ready s', acc_wait o timeout t l s = Some (inr ready, s') ->
  exists p, In p l /\ lp_ready p = ready.
Proof.
  induction l as [|p r IH]; intros t s x s' E; [discriminate E|]. cbn in E.
  destruct (timeout <=? t); [discriminate E|].
  destruct ((0 <? lo_abort o) && po_abort (lp_poll p)); [discriminate E|].
  destruct (poll _ (lp_poll p)) as [res dt].
  destruct (0 <? res); [injection E as <- <-; exists p; split; [now left|reflexivity]|].
  destruct (po_intr (lp_poll p) || (res =? 0)); [|discriminate E].
  apply IH in E. destruct E as (q & H & Q). exists q. split; [now right|exact Q].
Qed.

Lemma start_range n idx b : 0 < n -> 0 <= idx -> 0 <= acc_start n idx b < n.
Proof.
  intros Hn Hi. unfold acc_start. destruct (n <=? idx) eqn:E; [lia|]. apply Z.leb_gt in E.
  destruct (negb b); [apply Z.mod_pos_bound; lia|lia].
Qed.
Lemma pick_sound count n : forall idx ready, 0 <= idx < n ->
  exists found idx', acc_pick count n idx ready = Ret (found, idx') /\ 0 <= idx' < n /\
    (if found then exists k, 0 <= k < Z.of_nat count /\ idx' = (idx + k) mod n /\ nth (Z.to_nat idx') ready false = true
         /\ forall k', 0 <= k' < k -> nth (Z.to_nat ((idx + k') mod n)) ready false = false
     else forall k', 0 <= k' < Z.of_nat count -> nth (Z.to_nat ((idx + k') mod n)) ready false = false).
Proof.
  induction count as [|c IH]; intros idx ready H.
  - exists false, idx. split; [reflexivity|]. split; [exact H|]. intros k' Hk. lia.
  - cbn [acc_pick]. assert (R : (idx <? 0) || (n <=? idx) = false).
    { apply orb_false_iff. split; [apply Z.ltb_ge|apply Z.leb_gt]; lia. }
    rewrite R. destruct (nth (Z.to_nat idx) ready false) eqn:N.
    + exists true, idx. split; [reflexivity|]. split; [exact H|]. exists 0. split; [lia|].
      rewrite Z.add_0_r, Z.mod_small by lia. split; [reflexivity|]. split; [exact N|]. intros; lia.
    + destruct (IH ((idx + 1) mod n) ready (Z.mod_pos_bound _ n ltac:(lia))) as (found & idx' & E & B & P).
      exists found, idx'. split; [exact E|]. split; [exact B|].
      assert (S : forall k, ((idx + 1) mod n + k) mod n = (idx + (1 + k)) mod n).
      { intros k. rewrite Z.add_mod_idemp_l by lia. f_equal. lia. }
      assert (Z0 : forall k', 0 <= k' -> k' = 0 \/ exists k, k' = 1 + k /\ 0 <= k).
      { intros k' Hk. destruct (Z.eq_dec k' 0); [now left|right]. exists (k' - 1). lia. }
      assert (N0 : nth (Z.to_nat ((idx + 0) mod n)) ready false = false) by (rewrite Z.add_0_r, Z.mod_small by lia; exact N).
      destruct found.
      * destruct P as (k & Hk & Ek & Nk & Fk). exists (1 + k). split; [lia|]. split; [now rewrite Ek, S|].
        split; [exact Nk|]. intros k' Hk'. destruct (Z0 k' (proj1 Hk')) as [->|(k1 & -> & H1)]; [exact N0|].
        rewrite <- S. apply Fk. lia.
      * intros k' Hk'. destruct (Z0 k' (proj1 Hk')) as [->|(k1 & -> & H1)]; [exact N0|].
        rewrite <- S. apply P. lia.
Qed.

(** An accept on a socket that listens. *)
Lemma accept_sound o looks timeout tryCur polls acc s code s' :
  l_fds s <> [] -> 0 <= l_idx s ->
  acceptNextConnection o looks timeout tryCur polls acc s = Ret (Some (code, s')) ->
  0 < timeout /\ l_fds s' = l_fds s /\ l_port s' = l_port s /\ 0 <= l_idx s' /\
  (Forall (fun p => 0 <= po_after (lp_poll p)) polls -> l_now s <= l_now s' <= l_now s + timeout) /\
  (if code =? OK then
     exists p, In p polls /\ first_ready (zlen (l_fds s)) (acc_start (zlen (l_fds s)) (l_idx s) tryCur) (lp_ready p) (l_idx s')
       /\ l_idx s' < zlen (l_fds s)
       /\ 0 <= acc /\ l_conn s' = acc /\ l_tr s' = l_tr s ++ [LAccept (nth (Z.to_nat (l_idx s')) (l_fds s) (-1)) acc]
   else l_conn s' = l_conn s /\ l_tr s' = l_tr s).
Proof.
  intros Hf Hi E. unfold acceptNextConnection, listen in E.
  destruct (l_fds s) as [|f0 fr] eqn:F; [contradiction|]. cbn [obind negb Z.eqb OK] in E. cbv beta in E.
  change (negb (OK =? OK)) with false in E. cbv iota in E. rewrite F in E.
  destruct (timeout <=? 0) eqn:T; [discriminate E|]. apply Z.leb_gt in T. split; [exact T|].
  destruct (acc_wait o timeout 0 polls s) as [[[c|ready] s2]|] eqn:W; [| |discriminate E];
    pose proof (wait_state _ _ _ _ _ _ _ W) as (W1 & W2 & W3 & W4 & W5);
    assert (Wt : Forall (fun p => 0 <= po_after (lp_poll p)) polls -> l_now s <= l_now s2 <= l_now s + timeout)
      by (intros P; pose proof (wait_time _ _ _ _ _ _ _ (conj (Z.le_refl 0) (Z.lt_le_incl _ _ T)) P W); lia).
  - injection E as <- <-. split; [congruence|]. split; [exact W2|]. split; [lia|]. split; [exact Wt|].
    assert (N : c <> OK).
    { clear -W. revert W. generalize 0 as t. generalize s as s0. induction polls as [|p r IH]; intros s0 t E; [discriminate E|]. cbn in E.
      destruct (timeout <=? t); [injection E as <- <-; discriminate|].
      destruct ((0 <? lo_abort o) && po_abort (lp_poll p)); [injection E as <- <-; discriminate|].
      destruct (poll _ (lp_poll p)) as [res dt].
      destruct (0 <? res); [discriminate E|].
      destruct (po_intr (lp_poll p) || (res =? 0)); [|injection E as <- <-; discriminate].
      exact (IH _ _ E). }
    apply Z.eqb_neq in N. rewrite N. split; [exact W3|exact W5].
  - rewrite F in W1. cbv zeta in E. rewrite W1 in E.
    assert (Hn : 0 < zlen (f0 :: fr)) by (unfold zlen; cbn [length]; lia).
    assert (Hi2 : 0 <= l_idx s2) by lia.
    destruct (pick_sound (length (f0 :: fr)) (zlen (f0 :: fr)) (acc_start (zlen (f0 :: fr)) (l_idx s2) tryCur) ready
      (start_range _ _ _ Hn Hi2)) as (found & idx & P & B & Q).
    rewrite P in E. cbn [obind] in E.
    destruct found; cbn [negb] in E.
    2:{ injection E as <- <-. cbn. split; [exact W1|]. split; [exact W2|]. split; [lia|]. split; [exact Wt|]. split; [exact W3|exact W5]. }
    destruct (acc <? 0) eqn:A.
    { injection E as <- <-. cbn. split; [exact W1|]. split; [exact W2|]. split; [lia|]. split; [exact Wt|]. split; [exact W3|exact W5]. }
    apply Z.ltb_ge in A. injection E as <- <-. cbn [Z.eqb OK l_fds l_port l_idx l_now l_conn l_tr l_setConn l_say l_setIdx].
    split; [exact W1|]. split; [exact W2|]. split; [lia|]. split; [exact Wt|].
    change (OK =? OK) with true. cbv iota.
    destruct (wait_ready _ _ _ _ _ _ _ W) as (p & Hp & Rp). exists p. split; [exact Hp|]. rewrite Rp, <- W4.
    split; [|split; [lia|split; [exact A|split; [reflexivity|rewrite W5, W1; reflexivity]]]].
    destruct Q as (k & Hk & Ek & Nk & Fk). exists k. split; [exact Hk|]. split; [exact Ek|]. split; [exact Nk|exact Fk].
Qed.

(** The index is never outside. *)
Lemma accept_defined o looks timeout tryCur polls acc s : 0 <= l_idx s ->
  (forall s' code, listen o looks s = Ret (Some (code, s')) -> l_idx s' = l_idx s) ->
  listen o looks s <> Undef ->
  acceptNextConnection o looks timeout tryCur polls acc s <> Undef.
Proof.
  intros Hi HL HU E. unfold acceptNextConnection in E.
  destruct (listen o looks s) as [[[code s1]|]| |] eqn:L; cbn [obind] in E; try discriminate E; [|contradiction].
  destruct (negb (code =? OK)); [discriminate E|].
  destruct (l_fds s1) as [|f0 fr] eqn:F; [discriminate E|].
  destruct (timeout <=? 0); [discriminate E|].
  destruct (acc_wait o timeout 0 polls s1) as [[[c|ready] s2]|] eqn:W; try discriminate E.
  pose proof (wait_state _ _ _ _ _ _ _ W) as (W1 & W2 & W3 & W4 & W5).
  rewrite W1, F in E. cbv zeta in E.
  assert (Hn : 0 < zlen (f0 :: fr)) by (unfold zlen; cbn [length]; lia).
  specialize (HL s1 code eq_refl).
  assert (Hi2 : 0 <= l_idx s2) by lia.
  destruct (pick_sound (length (f0 :: fr)) (zlen (f0 :: fr)) (acc_start (zlen (f0 :: fr)) (l_idx s2) tryCur) ready
      (start_range _ _ _ Hn Hi2)) as (found & idx & P & B & Q).
  rewrite P in E. cbn [obind] in E. destruct found; cbn [negb] in E; [|discriminate E].
  destruct (acc <? 0); discriminate E.
Qed.

(** ** Closing *)
Lemma hang_inv s : inv s -> inv (closeNoCheck s) /\ l_conn (closeNoCheck s) < 0.
Proof.
  intros H. unfold closeNoCheck. destruct (l_conn s <? 0) eqn:C; [apply Z.ltb_lt in C; split; [exact H|exact C]|].
  apply Z.ltb_ge in C. split; [|cbn; lia].
  destruct H as [H|[H W]]; [left; cbn; now apply odd_app|right].
  destruct W as (W0 & W1 & W2 & W3).
  split.
  - cbn [l_tr l_say l_setConn]. eapply state_ext.
    + eapply state_close; [exact H|]. unfold expected. apply existsb_out in W3. rewrite W3, Z.eqb_refl.
      assert (L : (0 <=? l_conn s) = true) by now apply Z.leb_le. rewrite L. reflexivity.
    + intros x. unfold put, expected. cbn [l_fds l_port l_conn l_setConn l_say].
      destruct (x =? l_conn s) eqn:X.
      * apply Z.eqb_eq in X. subst x. apply existsb_out in W3. rewrite W3.
        destruct (l_conn s =? -1) eqn:Y; [apply Z.eqb_eq in Y; lia|reflexivity].
      * destruct (existsb (Z.eqb x) (l_fds s)); [reflexivity|]. cbn [andb].
        destruct (x =? -1) eqn:Y; [|reflexivity]. apply Z.eqb_eq in Y. subst x. reflexivity.
  - split; [exact W0|]. split; [exact W1|]. split; [exact W2|]. cbn. intros X. rewrite Forall_forall in W2. specialize (W2 _ X). lia.
Qed.
Lemma close_fds_fields l : forall s, l_port (close_fds l s) = l_port s /\ l_conn (close_fds l s) = l_conn s
  /\ l_idx (close_fds l s) = l_idx s /\ l_now (close_fds l s) = l_now s /\ l_fds (close_fds l s) = l_fds s.
Proof.
  unfold close_fds. induction l as [|fd l IH]; intros s; [now cbn|]. cbn [fold_left].
  destruct (0 <=? fd); [|apply IH]. destruct (IH (l_say s (LClose fd))) as (A & B & C & D & E). cbn in A, B, C, D, E. auto.
Qed.
Lemma close_fds_odd l : forall s, odd (l_tr s) -> odd (l_tr (close_fds l s)).
Proof.
  unfold close_fds. induction l as [|fd l IH]; intros s H; [exact H|]. cbn [fold_left].
  destruct (0 <=? fd); [|now apply IH]. apply IH. cbn. now apply odd_app.
Qed.
Lemma close_fds_state l : forall s f, NoDup l -> Forall (fun fd => 0 <= fd) l -> (forall fd, In fd l -> f fd <> None) ->
  state (l_tr s) f -> state (l_tr (close_fds l s)) (fun x => if existsb (Z.eqb x) l then None else f x).
Proof.
  unfold close_fds. induction l as [|fd l IH]; intros s f N P F H; [exact H|]. cbn [fold_left].
  inversion N as [|? ? Nf Nl]; inversion P as [|? ? Pf Pl]; subst.
  assert (L : (0 <=? fd) = true) by now apply Z.leb_le. rewrite L.
  destruct (f fd) as [v|] eqn:E; [|exfalso; apply (F fd); [now left|exact E]].
  eapply state_ext.
  - apply (IH _ (put f fd None)); [exact Nl|exact Pl| |].
    + intros x Hx. unfold put. destruct (x =? fd) eqn:X; [apply Z.eqb_eq in X; subst; contradiction|]. apply F. now right.
    + cbn [l_say l_tr]. eapply state_close; [exact H|exact E].
  - intros x. unfold put. cbn [existsb]. destruct (x =? fd); [cbn; now destruct (existsb (Z.eqb x) l)|reflexivity].
Qed.
Lemma shut_inv s : inv s -> inv (closeAllNoCheck s).
Proof.
  intros H. unfold closeAllNoCheck. destruct (hang_inv s H) as [H1 C].
  set (s1 := closeNoCheck s) in *. destruct (close_fds_fields (l_fds s1) s1) as (F1 & F2 & F3 & F4 & F5).
  destruct H1 as [H1|[H1 W]]; [left; cbn; now apply close_fds_odd|right].
  destruct W as (W0 & W1 & W2 & W3). split.
  - cbn [l_tr l_setFds]. eapply state_ext.
    + apply (close_fds_state (l_fds s1) s1 (expected s1)); [exact W1|exact W2| |exact H1].
      intros fd Hf. unfold expected. apply existsb_in in Hf. rewrite Hf. discriminate.
    + intros x. unfold expected. cbn [l_fds l_setFds l_conn existsb]. rewrite F2.
      destruct (existsb (Z.eqb x) (l_fds s1)) eqn:X; [|reflexivity].
      destruct (x =? l_conn s1) eqn:Y; [|reflexivity]. apply Z.eqb_eq in Y. subst x.
      assert (L : (0 <=? l_conn s1) = false) by (apply Z.leb_gt; lia). rewrite L. reflexivity.
  - unfold wf. cbn [l_fds l_setFds l_port l_conn]. rewrite F1. split; [exact W0|]. repeat split; [constructor|constructor|intros []].
Qed.

(** ** A life *)
Definition linv (s : lst) : Prop := inv s /\ 0 <= l_idx s /\ 0 <= l_port s.

Lemma listens_port o l more s : 0 <= l_port s -> all_sane l ->
  0 <= fst (listens (if lo_static o then l_port s else 0) l more).
Proof.
  intros H A. unfold listens. destruct (_ =? 0) eqn:E.
  - assert (S : forall l more i l', all_sane l -> selected l more = Some (i, l') -> 0 < in_sel i).
    { clear. induction l as [|i r IH]; intros more j l' A E; [discriminate E|]. cbn in E.
      assert (Ar : all_sane r) by (intros x Hx; apply A; now right).
      destruct (usable i && in_ask i); [|exact (IH _ _ _ Ar E)].
      destruct more as [|[[|x l0]|] more]; [discriminate E|exact (IH _ _ _ Ar E)| |exact (IH _ _ _ Ar E)].
      injection E as <- <-. apply (A i). now left. }
    destruct (selected l more) as [[i l']|] eqn:Q; [|cbn; lia]. cbn. specialize (S _ _ _ _ A Q). lia.
  - cbn. destruct (lo_static o); lia.
Qed.
Lemma listen_linv o looks s code s' : looks_sane looks -> linv s -> listen o looks s = Ret (Some (code, s')) ->
  linv s' /\ l_conn s' = l_conn s /\ (code = OK <-> l_fds s' <> []) /\ l_idx s' = l_idx s /\ l_now s' = l_now s.
Proof.
  intros M (I & Hi & Hp) E. destruct (l_fds s) as [|f0 fr] eqn:F.
  - destruct (listen_sound o looks s code s' F Hp M E) as (J1 & (S1 & S2 & S3) & J2).
    destruct looks as [|[l|] more].
    + unfold listen in E. rewrite F in E. discriminate E.
    + destruct J2 as (K1 & K2 & K3).
      assert (Al : all_sane l) by (intros i Hx; apply (M l i); [now left|exact Hx]).
      pose proof (listens_port o l more s Hp Al) as Lp.
      split; [split; [auto|split; [lia|]]|].
      { rewrite K2. destruct (l_fds s'); lia. }
      split; [exact S1|]. split; [|split; [exact S2|exact S3]].
      rewrite K3. destruct (l_fds s'); split; intros X; [discriminate X|now contradiction X|discriminate|reflexivity].
    + destruct J2 as [-> ->]. repeat split; auto; try discriminate. intros X. contradiction.
  - unfold listen in E. rewrite F in E. injection E as <- <-. repeat split; auto. intros _. congruence.
Qed.

Lemma next_linv o looks timeout tryCur polls acc s code s' : looks_sane looks -> linv s -> l_conn s < 0 ->
  acceptNextConnection o looks timeout tryCur polls acc s = Ret (Some (code, s')) -> linv s'.
Proof.
  intros M LI Hc E. pose proof E as E0. unfold acceptNextConnection in E.
  destruct (listen o looks s) as [[[c s1]|]| |] eqn:L; cbn [obind] in E; try discriminate E.
  destruct (listen_linv o looks s c s1 M LI L) as (LI1 & C1 & K1 & I1 & N1).
  destruct (negb (c =? OK)) eqn:Cc; [injection E as <- <-; exact LI1|].
  destruct (l_fds s1) as [|f0 fr] eqn:F; [discriminate E|].
  assert (E1 : acceptNextConnection o looks timeout tryCur polls acc s1 = Ret (Some (code, s'))).
  { unfold acceptNextConnection, listen. rewrite F. cbn [obind].
    change (negb (OK =? OK)) with false. cbv iota. rewrite F. exact E. }
  destruct LI1 as (I & Hi & Hp).
  destruct (accept_sound o looks timeout tryCur polls acc s1 code s' ltac:(congruence) Hi E1) as (A1 & A2 & A3 & A4 & A5 & A6).
  split; [|split; [exact A4|lia]].
  destruct (code =? OK).
  - destruct A6 as (p & Hp1 & Fr & Lt & Ha & Cn & Tr).
    destruct I as [I|[I W]]; [left; rewrite Tr; now apply odd_app|].
    set (from := nth (Z.to_nat (l_idx s')) (l_fds s1) (-1)) in *.
    assert (Fi : In from (l_fds s1)) by (apply nth_In; unfold zlen in Lt; lia).
    destruct W as (W0 & W1 & W2 & W3).
    assert (Ef : expected s1 from = Some (l_port s1)) by (unfold expected; apply existsb_in in Fi; now rewrite Fi).
    destruct (expected s1 acc) eqn:Ea.
    + left. rewrite Tr. eapply accept_fresh; [exact I|exact Ef|lia|congruence].
    + right. assert (Na : ~ In acc (l_fds s1)).
      { apply existsb_out. unfold expected in Ea. destruct (existsb (Z.eqb acc) (l_fds s1)); [discriminate Ea|reflexivity]. }
      split.
      * rewrite Tr. eapply state_ext; [eapply state_accept; [exact I|exact Ef|lia]|].
        intros x. unfold put, expected. rewrite A2, A3, Cn.
        destruct (x =? acc) eqn:X.
        -- apply Z.eqb_eq in X. subst x. apply existsb_out in Na. rewrite Na.
           assert (G : (0 <=? acc) = true) by now apply Z.leb_le. rewrite G. reflexivity.
        -- destruct (existsb (Z.eqb x) (l_fds s1)); [reflexivity|]. cbn [andb].
           destruct (x =? l_conn s1) eqn:Y; [|reflexivity]. apply Z.eqb_eq in Y. subst x.
           assert (G : (0 <=? l_conn s1) = false) by (apply Z.leb_gt; lia). rewrite G. reflexivity.
      * unfold wf. rewrite A2, A3, Cn. repeat split; assumption.
  - destruct A6 as [A6 A7]. destruct I as [I|[I W]]; [left; now rewrite A7|right].
    split; [rewrite A7; eapply state_ext; [exact I|]; intros x; unfold expected; now rewrite A2, A3, A6|].
    unfold wf. rewrite A2, A3, A6. exact W.
Qed.

Lemma hang_fields s : l_fds (closeNoCheck s) = l_fds s /\ l_port (closeNoCheck s) = l_port s
  /\ l_idx (closeNoCheck s) = l_idx s /\ l_now (closeNoCheck s) = l_now s.
Proof. unfold closeNoCheck. destruct (l_conn s <? 0); cbn; auto. Qed.

Lemma step_linv o s x s' : op_sane x -> linv s -> l_step o s x = Ret (Some s') -> linv s'.
Proof.
  intros M LI E. pose proof LI as (I & Hi & Hp).
  destruct (hang_fields s) as (F1 & F2 & F3 & F4).
  assert (LH : linv (closeNoCheck s)) by (split; [now apply hang_inv|rewrite F2, F3; auto]).
  destruct x as [looks|looks timeout tryCur polls acc| |]; cbn [l_step op_sane] in *.
  - destruct (listen o looks s) as [[[c s1]|]| |] eqn:L; cbn in E; try discriminate E. injection E as <-.
    exact (proj1 (listen_linv o looks s c s1 M LI L)).
  - destruct (acceptNextConnection o looks timeout tryCur polls acc (closeNoCheck s)) as [[[c s1]|]| |] eqn:L; cbn in E; try discriminate E.
    injection E as <-. exact (next_linv _ _ _ _ _ _ _ _ _ M LH (proj2 (hang_inv s I)) L).
  - injection E as <-. exact LH.
  - injection E as <-. split; [now apply shut_inv|]. unfold closeAllNoCheck. cbn [l_setFds l_idx l_port].
    destruct (close_fds_fields (l_fds (closeNoCheck s)) (closeNoCheck s)) as (-> & _ & -> & _). rewrite F2, F3. auto.
Qed.
Lemma run_linv o l : forall s s', Forall op_sane l -> linv s -> l_run o s l = Ret (Some s') -> linv s'.
Proof.
  induction l as [|x l IH]; intros s s' F LI E; [injection E as <-; exact LI|]. cbn in E.
  inversion F as [|? ? Fx Fl]; subst.
  destruct (l_step o s x) as [[s1|]| |] eqn:S; cbn in E; try discriminate E.
  exact (IH _ _ Fl (step_linv _ _ _ _ Fx LI S) E).
Qed.
Lemma new_linv port : 0 <= port -> linv (l_new port).
Proof.
  intros H. split; [|split; [cbn; lia|exact H]]. right. split.
  - cbn. intros fd. unfold expected. cbn. destruct (fd =? -1) eqn:E; [|reflexivity]. apply Z.eqb_eq in E. subst. reflexivity.
  - split; [exact H|]. repeat split; [constructor|constructor|intros []].
Qed.
Lemma life_accounted o port l s : 0 <= port -> Forall op_sane l -> l_run o (l_new port) l = Ret (Some s) ->
  accounted s /\ accounted (closeAllNoCheck s) /\ forall fd, expected (closeAllNoCheck s) fd = None.
Proof.
  intros H F E. pose proof (run_linv o l _ _ F (new_linv port H) E) as (I & _ & _).
  split; [now apply inv_accounted|]. split; [apply inv_accounted; now apply shut_inv|].
  intros fd. apply expected_none; [intros []|]. cbn [l_conn closeAllNoCheck l_setFds].
  unfold closeAllNoCheck. cbn [l_conn l_setFds]. destruct (close_fds_fields (l_fds (closeNoCheck s)) (closeNoCheck s)) as (_ & -> & _).
  intros ->. exact (proj2 (hang_inv s I)).
Qed.

(** ** No undefined behaviour, and when a check fails *)
Lemma scan_defined more : forall port bound l s, scan more port bound l s <> Undef.
Proof.
  induction more as [|m more IHm]; intros port bound l; induction l as [|i r IH]; intros s E; try discriminate E.
  - cbn [scan] in E. destruct (in_fam i =? bound); [exact (IH _ E)|].
    destruct (match in_name i with Some p => negb (p =? port) | None => false end); [discriminate E|].
    destruct (listenInternal i port s) as [fd s1].
    destruct (fd <? 0); [exact (IH _ E)|].
    destruct (port =? 0); [|exact (IH _ E)].
    destruct (negb (in_ask i)); [exact (IH _ E)|discriminate E].
  - change (scan (m :: more) port bound (i :: r) s) with
      (if in_fam i =? bound then scan (m :: more) port bound r s
      else if match in_name i with Some p => negb (p =? port) | None => false end then Crash
      else
        let '(fd, s1) := listenInternal i port s in
        if fd <? 0 then scan (m :: more) port bound r s1
        else if port =? 0 then
          if negb (in_ask i) then scan (m :: more) port bound r (l_say s1 (LClose fd))
          else
            match m with
            | None | Some [] => scan more port bound r (l_say s1 (LClose fd))
            | Some l' =>
                scan more (in_sel i) (in_fam i) l' (l_setFds (l_setPort s1 (in_sel i)) (l_fds s1 ++ [fd]))
            end
        else scan (m :: more) port bound r (l_setFds s1 (l_fds s1 ++ [fd]))) in E.
    destruct (in_fam i =? bound); [exact (IH _ E)|].
    destruct (match in_name i with Some p => negb (p =? port) | None => false end); [discriminate E|].
    destruct (listenInternal i port s) as [fd s1].
    destruct (fd <? 0); [exact (IH _ E)|].
    destruct (port =? 0); [|exact (IH _ E)].
    destruct (negb (in_ask i)); [exact (IH _ E)|].
    destruct m as [[|x l']|]; exact (IHm _ _ _ _ E).
Qed.
Lemma listen_defined o looks s : listen o looks s <> Undef.
Proof.
  unfold listen. destruct (l_fds s); [|discriminate]. destruct looks as [|[l|] more]; try discriminate.
  destruct (scan more _ AF_UNSPEC l s) as [[s'|]| |] eqn:E; try discriminate. exfalso. exact (scan_defined _ _ _ _ _ E).
Qed.
Lemma life_defined o port l : 0 <= port -> Forall op_sane l -> l_run o (l_new port) l <> Undef.
Proof.
  intros H F. pose proof (new_linv port H) as LI. revert LI. generalize (l_new port) as s.
  induction l as [|x l IH]; intros s LI E; [discriminate E|]. cbn in E.
  inversion F as [|? ? Fx Fl]; subst.
  destruct (l_step o s x) as [[s1|]| |] eqn:S; cbn in E; try discriminate E.
  - exact (IH Fl _ (step_linv _ _ _ _ Fx LI S) E).
  - clear E. destruct LI as (I & Hi & Hp). destruct (hang_fields s) as (F1 & F2 & F3 & F4).
    assert (LH : linv (closeNoCheck s)) by (split; [now apply hang_inv|rewrite F2, F3; auto]).
    destruct x as [looks|looks timeout tryCur polls acc| |]; cbn [l_step op_sane] in *; try discriminate S.
    + destruct (listen o looks s) as [[[c s1]|]| |] eqn:L; cbn in S; try discriminate S. exact (listen_defined _ _ _ L).
    + destruct (acceptNextConnection o looks timeout tryCur polls acc (closeNoCheck s)) as [[[c s1]|]| |] eqn:L; cbn in S; try discriminate S.
      revert L. apply accept_defined; [rewrite F3; exact Hi| |apply listen_defined].
      intros s1 c L. exact (proj1 (proj2 (proj2 (proj2 (listen_linv _ _ _ _ _ Fx LH L))))).
Qed.
