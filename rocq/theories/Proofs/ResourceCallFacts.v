(** The slots of wdtSend and wdtReceiveStart. *)
From Coq Require Import Lia Bool.
From Verif Require Export Proofs.ResourceSlotFacts.
From Verif Require Import Proofs.SumFacts Proofs.QueueMonitorFacts Proofs.HistoryFacts.
Import ListNotations.
Open Scope Z_scope.

(** Each call is in one thread, or has returned, once. *)
Definition th_is (c : nat) (t : rthread) : Z := match t with RBusy c' _ _ => if Nat.eqb c' c then 1 else 0 | RIdle => 0 end.
Definition log_is (c : nat) (e : nat * kont * Z) : Z := if Nat.eqb (fst (fst e)) c then 1 else 0.
Definition Once (s : rsys) : Prop := forall c,
  zsum (th_is c) (ry_threads s) + zsum (log_is c) (ry_log s) = if Nat.ltb c (length (ry_calls s)) then 1 else 0.
Lemma Once_step s e s' : Once s -> ry_step s e = Some s' -> Once s'.
Proof.
  intros O H c. specialize (O c). apply step_cases in H.
  destruct H as [(i & c0 & Hi & ->)|(i & ch & c0 & k & o & sh & r & Hi & Ho & H)].
  - cbn [ry_threads ry_log ry_calls]. rewrite (zsum_set (th_is c) _ i _ _ Hi). cbn [th_is]. rewrite app_length. cbn [length].
    destruct (Nat.eqb_spec (length (ry_calls s)) c) as [E|E].
    + subst c. rewrite Nat.ltb_irrefl in O. destruct (Nat.ltb_spec (length (ry_calls s)) (length (ry_calls s) + 1)); lia.
    + destruct (Nat.ltb_spec c (length (ry_calls s))), (Nat.ltb_spec c (length (ry_calls s) + 1)); lia.
  - destruct H as [(o' & -> & ->)|[(code & obj & k' & o' & -> & Er & ->)|(code & obj & code' & -> & Er & ->)]];
      cbn [set_th ry_threads ry_log ry_calls]; rewrite (zsum_set (th_is c) _ i _ _ Hi); cbn [th_is].
    + lia.
    + lia.
    + rewrite zsum_app. cbn [zsum]. unfold log_is at 2. cbn [fst]. destruct (Nat.eqb c0 c); lia.
Qed.
Lemma Once_run max nsmax n evs s : ry_run evs (ry_init max nsmax n) = Some s -> Once s.
Proof.
  intros H. refine (run_inv Once Once_step evs _ s _ H). intros c. cbn. rewrite zsum_repeat. cbn.
  destruct (Nat.ltb_spec c 0); lia.
Qed.
Lemma th_is_pos c t : 0 <= th_is c t. Proof. destruct t as [|c' k o]; cbn; [lia|]. destruct (Nat.eqb c' c); lia. Qed.
Lemma log_is_pos c t : 0 <= log_is c t. Proof. unfold log_is. destruct (Nat.eqb _ c); lia. Qed.
Lemma Once_busy s c i k o e : Once s -> nth_error (ry_threads s) i = Some (RBusy c k o) -> In e (ry_log s) -> fst (fst e) = c -> False.
Proof.
  intros O H1 H2 E. specialize (O c).
  assert (1 <= zsum (th_is c) (ry_threads s)).
  { pose proof (zsum_set (th_is c) _ i _ RIdle H1) as Z. cbn [th_is] in Z. rewrite Nat.eqb_refl in Z.
    assert (0 <= zsum (th_is c) (set_nth (ry_threads s) i RIdle)) by (apply zsum_nonneg; intros; apply th_is_pos). lia. }
  assert (1 <= zsum (log_is c) (ry_log s)).
  { apply In_nth_error in H2. destruct H2 as (j & H2). pose proof (zsum_set (log_is c) _ j _ (S c, KDirect, 0) H2) as Z.
    assert (E1 : log_is c e = 1) by (unfold log_is; rewrite E, Nat.eqb_refl; reflexivity).
    assert (E2 : log_is c (S c, KDirect, 0) = 0) by (unfold log_is; cbn [fst]; destruct (Nat.eqb_spec (S c) c); lia).
    assert (0 <= zsum (log_is c) (set_nth (ry_log s) j (S c, KDirect, 0))) by (apply zsum_nonneg; intros; apply log_is_pos). lia. }
  destruct (Nat.ltb c (length (ry_calls s))); lia.
Qed.

(** What is in the maps of registered controllers after a section. *)
Lemma set_pool_entries sd k s p j sd' nc' : nth_error (rs_heap (set_pool sd k s p)) j = Some nc' ->
  (exists nc, nth_error (rs_heap s) j = Some nc /\ nc_name nc = nc_name nc' /\
     pool_of sd' nc' = if Nat.eqb k j then match sd', sd with Snd, Snd | Rcv, Rcv => p | _, _ => pool_of sd' nc end else pool_of sd' nc).
Proof.
  unfold set_pool. destruct (nth_error (rs_heap s) k) as [nk|] eqn:En.
  - cbn [set_heap rs_heap]. destruct (Nat.eqb_spec k j) as [->|Hne].
    + rewrite (nth_set_same _ _ _ _ En). intros [= <-]. exists nk. split; [exact En|]. split; [reflexivity|]. apply pool_with.
    + rewrite nth_set_other by exact Hne. intros H. exists nc'. auto.
  - intros H. exists nc'. split; [exact H|]. split; [reflexivity|]. destruct (Nat.eqb_spec k j) as [->|]; [congruence|reflexivity].
Qed.
Definition entry (s : rshare) (ns : Z) (k : nat) (sd : side) (id : Z) (o : nat) : Prop :=
  lookup ns (rs_map s) = Some k /\ exists nc, nth_error (rs_heap s) k = Some nc /\ In (id, o) (po_map (pool_of sd nc)).
Lemma release_sub w st p p' n e : release w st p = (p', n) -> In e (po_map p') ->
  In e (po_map p) /\ (forall id, w = One id -> fst e <> id) /\ w <> All.
Proof.
  unfold release. intros [= <- <-] H. cbn [po_map] in H. apply filter_In in H. destruct H as (H1 & H2). split; [exact H1|]. split.
  - intros id -> E. subst id. rewrite Z.eqb_refl in H2. discriminate.
  - intros ->. discriminate.
Qed.
Lemma set_pool_entry s sd k p nc s0 w st n ns j sd' id o : rs_heap s0 = rs_heap s -> rs_map s0 = rs_map s ->
  nth_error (rs_heap s) k = Some nc -> release w st (pool_of sd nc) = (p, n) ->
  entry (set_pool sd k s0 p) ns j sd' id o -> entry s ns j sd' id o /\ ~ (sd' = sd /\ j = k /\ w = One id).
Proof.
  intros E1 E2 En Er (H1 & nc' & H2 & H3). rewrite set_pool_map, E2 in H1.
  destruct (set_pool_entries sd k s0 p j sd' nc' H2) as (nc1 & N1 & _ & N3). rewrite E1 in N1. rewrite N3 in H3.
  destruct (Nat.eqb_spec k j) as [->|Hne].
  - assert (nc1 = nc) by congruence. subst nc1.
    assert (C : (sd' = sd /\ In (id, o) (po_map p)) \/ (sd' <> sd /\ In (id, o) (po_map (pool_of sd' nc)))).
    { destruct sd', sd; ((left; split; [reflexivity|exact H3]) || (right; split; [discriminate|exact H3])). }
    destruct C as [(-> & C)|(Hn & C)].
    + destruct (release_sub _ _ _ _ _ _ Er C) as (R1 & R2 & _). split; [split; [exact H1|eauto]|].
      intros (_ & _ & E). exact (R2 id E eq_refl).
    + split; [split; [exact H1|eauto]|]. tauto.
  - split; [split; [exact H1|eauto]|]. intros (_ & E & _). congruence.
Qed.
Lemma erase_lookup x y m v : lookup x (erase y m) = Some v -> NoDup (map fst m) -> lookup x m = Some v.
Proof.
  intros H N. apply lookup_in in H. apply filter_In in H. apply in_lookup; [exact N|exact (proj1 H)].
Qed.
Lemma step_objs s c used ch o s' r : op_step s c used ch o = Some (s', r) -> exists l, rs_objs s' = rs_objs s ++ l.
Proof.
  intros H.
  assert (R : forall t, rs_objs t = rs_objs s -> exists l, rs_objs t = rs_objs s ++ l).
  { intros t ->. exists []. rewrite app_nil_r. reflexivity. }
  destruct o; cbn [op_step] in H;
    repeat match goal with
           | H : context [match lookup ?x ?m with _ => _ end] |- _ => destruct (lookup x m)
           | H : context [match nth_error ?x ?m with _ => _ end] |- _ => destruct (nth_error x m)
           | H : context [if ?b then _ else _] |- _ => destruct b
           | H : context [let '(_, _) := release ?a ?b ?c in _] |- _ => destruct (release a b c)
           end; try discriminate; injection H as <- <-; try (apply R; rewrite ?set_pool_objs; reflexivity).
  - rewrite set_pool_objs. cbn [set_objs rs_objs]. eexists. reflexivity.
  - apply R. cbn. rewrite set_pool_objs. reflexivity.
  - apply R. cbn. rewrite set_pool_objs. reflexivity.
Qed.
Lemma step_entries s c used ch o s' r ns k sd id ob : op_step s c used ch o = Some (s', r) -> share_ok s ->
  entry s' ns k sd id ob ->
  (entry s ns k sd id ob /\ o <> ORelease2 sd k (One id)) \/
  (exists tid, o = OCreate2 sd k id tid /\ ob = length (rs_objs s) /\ r = Done OK (Some ob) /\ lookup ns (rs_map s) = Some k /\
     nth_error (rs_objs s') ob = Some {| ob_side := sd; ob_tid := tid; ob_call := c |}).
Proof.
  intros H S E.
  assert (Same : forall t, rs_heap t = rs_heap s -> rs_map t = rs_map s -> entry t ns k sd id ob -> entry s ns k sd id ob).
  { intros t E1 E2. unfold entry. rewrite E1, E2. tauto. }
  assert (An : forall n, lookup n (rs_map s) = None -> entry (add_ns s n) ns k sd id ob -> entry s ns k sd id ob).
  { intros n Hn (H1 & nc & H2 & H3). cbn [add_ns set_map set_heap rs_heap rs_map lookup] in H1, H2.
    destruct (Z.eqb_spec ns n) as [->|Hne].
    - injection H1 as <-. rewrite nth_error_app2, Nat.sub_diag in H2 by lia. injection H2 as <-. destruct sd; destruct H3.
    - split; [exact H1|]. destruct (so_map _ S ns k (lookup_in _ _ _ H1)) as (nc' & N1 & _).
      rewrite nth_error_app1 in H2 by (apply nth_error_Some; congruence). eauto. }
  destruct o; cbn [op_step] in H.
  - left. split; [|discriminate]. destruct (lookup ns0 (rs_map s)) as [j|] eqn:El.
    + destruct (nth_error (rs_heap s) j) as [nc|]; [|discriminate]. destruct (quota sd0 s nc), (rs_locked s); try discriminate;
        injection H as <- <-; [apply (Same (add_num sd0 1 s)); auto|exact E].
    + destruct (rs_strict s).
      * destruct (rs_locked s); [discriminate|]. injection H as <- <-. exact E.
      * destruct (nth_error (rs_heap (add_ns s ns0)) _) as [nc|]; [|discriminate].
        destruct (quota sd0 (add_ns s ns0) nc), (rs_locked s); try discriminate; injection H as <- <-; apply (An ns0); auto.
  - skip_ns H k0. injection H as H. destruct (lookup id0 (po_map (pool_of sd0 nc))); [injection H as <- <-; left; split; [exact E|discriminate]|].
    destruct (pool_quota (pool_of sd0 nc)); injection H as <- <-; [|left; split; [exact E|discriminate]].
    destruct E as (H1 & nc' & H2 & H3). rewrite set_pool_map in H1. cbn [set_objs rs_map] in H1.
    destruct (set_pool_entries _ _ _ _ _ sd nc' H2) as (nc1 & N1 & _ & N3). cbn [set_objs rs_heap] in N1. rewrite N3 in H3.
    destruct (Nat.eqb_spec k0 k) as [->|Hne]; [|left; split; [split; [exact H1|eauto]|discriminate]].
    assert (nc1 = nc) by congruence. subst nc1.
    assert (C : (sd = sd0 /\ ((id0, length (rs_objs s)) = (id, ob) \/ In (id, ob) (po_map (pool_of sd0 nc)))) \/
                (sd <> sd0 /\ In (id, ob) (po_map (pool_of sd nc)))).
    { destruct sd, sd0; ((left; split; [reflexivity|exact H3]) || (right; split; [discriminate|exact H3])). }
    destruct C as [(<- & [C|C])|(_ & C)].
    + injection C as <- <-. right. exists tid. split; [reflexivity|]. split; [reflexivity|]. split; [reflexivity|]. split; [exact H1|].
      rewrite set_pool_objs. cbn [set_objs rs_objs]. rewrite nth_error_app2, Nat.sub_diag by lia. reflexivity.
    + left. split; [split; [exact H1|eauto]|discriminate].
    + left. split; [split; [exact H1|eauto]|discriminate].
  - left. split; [|discriminate]. destruct (rs_locked s); [discriminate|]. injection H as <- <-. apply (Same (add_num sd0 (-1) s)); auto.
  - left. split; [|discriminate]. destruct (rs_locked s); [discriminate|]. injection H as <- <-. exact E.
  - left. skip_ns H k0. destruct (release w (rc_stale ch) (pool_of sd0 nc)) as (p, n) eqn:Er. injection H as <- <-.
    destruct (set_pool_entry s sd0 k0 p nc s w _ n ns k sd id ob eq_refl eq_refl En Er E) as (A1 & A2). split; [exact A1|].
    intros [= -> -> ->]. tauto.
  - left. split; [|discriminate]. destruct (rs_locked s); [discriminate|]. injection H as <- <-. apply (Same (add_num sd0 (-n) s)); auto.
  - left. split; [|discriminate]. destruct (rs_locked s); [discriminate|]. injection H as <- <-. exact E.
  - left. split; [|discriminate]. skip_ns H k0. injection H as <- <-. exact E.
  - left. split; [|discriminate]. destruct (rs_locked s); [discriminate|]. injection H as <- <-.
    destruct (lookup ns0 (rs_map s)) eqn:El; [exact E|]. apply (An ns0); auto.
  - left. split; [|discriminate]. destruct (rs_locked s); [discriminate|]. injection H as H.
    destruct (lookup ns0 (rs_map s)); injection H as <- <-; [|exact E].
    destruct E as (H1 & H2). split; [|exact H2]. cbn [set_map rs_map] in H1. apply (erase_lookup _ _ _ _ H1). apply (so_names _ S).
  - left. split; [|discriminate]. skip_ns H k0. destruct (release All [] (pool_of Snd nc)) as (p, n) eqn:Er. injection H as <- <-.
    exact (proj1 (set_pool_entry s Snd k0 p nc s _ _ n ns k sd id ob eq_refl eq_refl En Er E)).
  - left. split; [|discriminate]. skip_ns H k0. destruct (release All [] (pool_of Rcv nc)) as (p, n) eqn:Er. injection H as <- <-.
    exact (proj1 (set_pool_entry s Rcv k0 p nc s _ _ n ns k sd id ob eq_refl eq_refl En Er E)).
  - left. split; [|discriminate]. destruct (rs_locked s); [discriminate|]. injection H as <- <-.
    apply (Same (add_num Rcv (- b) (add_num Snd (- a) s))); auto.
  - left. split; [|discriminate]. destruct (used k0); [discriminate|]. injection H as <- <-. exact E.
  - left. split; [|discriminate]. destruct (rs_locked s); [discriminate|]. injection H as <- <-. eapply Same; [reflexivity|reflexivity|exact E].
  - left. split; [|discriminate]. destruct (rs_locked s); [discriminate|]. injection H as <- <-. exact E.
  - left. split; [|discriminate]. skip_ns H k0. injection H as <- <-.
    destruct E as (H1 & nc' & H2 & H3). rewrite set_pool_map in H1.
    destruct (set_pool_entries _ _ _ _ _ sd nc' H2) as (nc1 & N1 & _ & N3). rewrite N3 in H3. split; [exact H1|]. exists nc1. split; [exact N1|].
    destruct (Nat.eqb_spec k0 k) as [->|Hne]; [|exact H3]. assert (nc1 = nc) by congruence. subst nc1.
    destruct sd, sd0; exact H3.
  - left. split; [|discriminate]. injection H as <- <-. eapply Same; [reflexivity|reflexivity|exact E].
  - left. split; [|discriminate]. destruct (rs_locked s); [discriminate|]. injection H as <- <-. eapply Same; [reflexivity|reflexivity|exact E].
  - left. split; [|discriminate]. skip_ns H k0. destruct (release All [] (pool_of Snd nc)) as (p, n) eqn:Er. injection H as <- <-.
    exact (proj1 (set_pool_entry s Snd k0 p nc s _ _ n ns k sd id ob eq_refl eq_refl En Er E)).
  - left. split; [|discriminate]. skip_ns H k0. destruct (release All [] (pool_of Rcv nc)) as (p, n) eqn:Er. injection H as <- <-.
    exact (proj1 (set_pool_entry s Rcv k0 p nc s _ _ n ns k sd id ob eq_refl eq_refl En Er E)).
  - left. split; [|discriminate]. injection H as <- <-. destruct E as (E1 & _). discriminate E1.
  - left. split; [|discriminate]. injection H as <- <-. exact E.
Qed.

(** Where a thread is, for the call it makes. *)
Definition creating (s : rshare) (sd : side) (ns id : Z) (o : rop) : Prop :=
  match o with
  | OCreate sd' ns' id' _ => sd' = sd /\ ns' = ns /\ id' = id
  | OCreate2 sd' k id' _ => sd' = sd /\ id' = id /\ exists nc, nth_error (rs_heap s) k = Some nc /\ nc_name nc = ns
  | OCreate3 _ _ code _ => code <> OK
  | _ => False
  end.
Definition releasing (sd : side) (ns id : Z) (o : rop) : Prop :=
  match o with
  | ORelease sd' ns' w => sd' = sd /\ ns' = ns /\ w = One id
  | ORelease2 sd' _ w | ORelease3 sd' _ w _ => sd' = sd /\ w = One id
  | _ => False
  end.
Definition at_call (s : rshare) (call : rcall) (k : kont) (o : rop) : Prop :=
  match k with
  | KDirect => match call with CSend _ _ _ _ | CRecvStart _ _ _ | CRecvFinish _ _ => False | _ => True end
  | KSend1 ns key tid t => call = CSend ns key tid t /\ creating s Snd ns key o
  | KSendRel ns key tid => (exists t, call = CSend ns key tid t) /\ releasing Snd ns key o
  | KSend2 ns key => (exists tid t, call = CSend ns key tid t) /\ creating s Snd ns key o
  | KSendInit ns key _ | KSendRun ns key _ => (exists tid t, call = CSend ns key tid t) /\ o = OUser
  | KSendEnd ns key _ _ => (exists tid t, call = CSend ns key tid t) /\ releasing Snd ns key o
  | KRecv => exists ns id tid, call = CRecvStart ns id tid /\ creating s Rcv ns id o
  | KRecvInit _ | KRecvAsync _ => (exists ns id tid, call = CRecvStart ns id tid) /\ o = OUser
  | KFinGet ns id => call = CRecvFinish ns id /\ match o with OGet _ _ _ | OGet2 _ _ _ => True | _ => False end
  | KFin ns id _ => call = CRecvFinish ns id /\ o = OUser
  | KFinEnd _ => exists ns id, call = CRecvFinish ns id /\ releasing Rcv ns id o
  end.
Lemma step_name_fwd s c used ch o s' r k nc : op_step s c used ch o = Some (s', r) ->
  (length (rs_heap s) <= length (rs_heap s'))%nat -> nth_error (rs_heap s) k = Some nc ->
  exists nc', nth_error (rs_heap s') k = Some nc' /\ nc_name nc' = nc_name nc.
Proof.
  intros H L E. assert (K : (k < length (rs_heap s))%nat) by (apply nth_error_Some; congruence).
  destruct (nth_error (rs_heap s') k) as [nc'|] eqn:E'.
  - exists nc'. split; [reflexivity|]. destruct (step_names _ _ _ _ _ _ _ k nc' H K E') as (nc2 & N1 & N2). congruence.
  - apply nth_error_None in E'. lia.
Qed.
Lemma creating_mono s c used ch o0 s' r sd ns id o : op_step s c used ch o0 = Some (s', r) ->
  (length (rs_heap s) <= length (rs_heap s'))%nat -> creating s sd ns id o -> creating s' sd ns id o.
Proof.
  intros H L C. destruct o; cbn in *; auto. destruct C as (-> & -> & nc & N1 & N2).
  destruct (step_name_fwd _ _ _ _ _ _ _ _ _ H L N1) as (nc' & M1 & M2). split; [reflexivity|]. split; [reflexivity|].
  exists nc'. split; [exact M1|congruence].
Qed.
Lemma at_call_mono s c used ch o0 s' r call k o : op_step s c used ch o0 = Some (s', r) ->
  (length (rs_heap s) <= length (rs_heap s'))%nat -> at_call s call k o -> at_call s' call k o.
Proof.
  intros H L A. destruct k; cbn in *; auto.
  - destruct A as (A1 & A2). split; [exact A1|]. eapply creating_mono; eassumption.
  - destruct A as (A1 & A2). split; [exact A1|]. eapply creating_mono; eassumption.
  - destruct A as (ns & id & tid & A1 & A2). exists ns, id, tid. split; [exact A1|]. eapply creating_mono; eassumption.
Qed.
Lemma creating_step s c used ch o s' o' sd ns id : op_step s c used ch o = Some (s', Go o') -> share_ok s ->
  (length (rs_heap s) <= length (rs_heap s'))%nat -> creating s sd ns id o -> creating s' sd ns id o'.
Proof.
  intros H S L C. destruct o; cbn [creating] in C; try tauto; cbn [op_step] in H.
  - destruct C as (-> & -> & ->). destruct (lookup ns (rs_map s)) as [j|] eqn:El.
    + destruct (nth_error (rs_heap s) j) as [nc|] eqn:En; [|discriminate]. destruct (quota sd s nc), (rs_locked s); try discriminate;
        injection H as <- <-. cbn. split; [reflexivity|]. split; [reflexivity|]. exact (so_map _ S _ _ (lookup_in _ _ _ El)).
    + destruct (rs_strict s); [destruct (rs_locked s); discriminate|].
      destruct (nth_error (rs_heap (add_ns s ns)) _) as [nc|]; [|discriminate].
      destruct (quota sd (add_ns s ns) nc), (rs_locked s); try discriminate; injection H as <- <-. cbn [creating].
      split; [reflexivity|]. split; [reflexivity|]. exists (new_ns s ns). split; [|reflexivity].
      cbn [add_num set_glob add_ns set_map set_heap rs_heap]. rewrite nth_error_app2, Nat.sub_diag by lia. reflexivity.
  - destruct (nth_error (rs_heap s) k) as [nc|] eqn:En; [|discriminate]. injection H as H.
    destruct (lookup id0 (po_map (pool_of sd0 nc))); [injection H as <- <-; cbn; discriminate|].
    destruct (pool_quota (pool_of sd0 nc)); [discriminate|]. injection H as <- <-. cbn. discriminate.
  - destruct (rs_locked s); discriminate.
Qed.
Lemma releasing_step s c used ch o s' o' sd ns id : op_step s c used ch o = Some (s', Go o') -> releasing sd ns id o -> releasing sd ns id o'.
Proof.
  intros H C. destruct o; cbn [releasing] in C; try tauto; cbn [op_step] in H.
  - destruct C as (-> & -> & ->). destruct (rs_locked s); [discriminate|]. injection H as <- H.
    destruct (lookup ns (rs_map s)); [|discriminate]. injection H as <-. cbn. tauto.
  - destruct C as (-> & ->). destruct (nth_error (rs_heap s) k) as [nc|]; [|discriminate].
    destruct (release (One id) (rc_stale ch) (pool_of sd nc)) as (p, n). injection H as <- H.
    destruct (n >? 0); [|discriminate]. injection H as <-. cbn. tauto.
  - destruct (rs_locked s); discriminate.
Qed.
Lemma at_call_go s c used ch o s' o' call k : op_step s c used ch o = Some (s', Go o') -> share_ok s ->
  (length (rs_heap s) <= length (rs_heap s'))%nat -> at_call s call k o -> at_call s' call k o'.
Proof.
  intros H S L A.
  assert (U : o <> OUser) by (intros ->; discriminate H).
  destruct k; cbn [at_call] in *.
  - exact A.
  - destruct A as (A1 & A2). split; [exact A1|]. eapply creating_step; eassumption.
  - destruct A as (A1 & A2). split; [exact A1|]. eapply releasing_step; eassumption.
  - destruct A as (A1 & A2). split; [exact A1|]. eapply creating_step; eassumption.
  - tauto.
  - tauto.
  - destruct A as (A1 & A2). split; [exact A1|]. eapply releasing_step; eassumption.
  - destruct A as (ns & id & tid & A1 & A2). exists ns, id, tid. split; [exact A1|]. eapply creating_step; eassumption.
  - tauto.
  - tauto.
  - destruct A as (A1 & A2). split; [exact A1|]. destruct o; try tauto; cbn [op_step] in H.
    + destruct (rs_locked s); [discriminate|]. injection H as <- H. destruct (lookup ns0 (rs_map s)); [|discriminate]. injection H as <-. exact I.
    + destruct (nth_error (rs_heap s) k) as [nc|]; discriminate.
  - tauto.
  - destruct A as (ns & id & A1 & A2). exists ns, id. split; [exact A1|]. eapply releasing_step; eassumption.
Qed.
Lemma at_call_next s call k o objs code obj k' o' : resume objs k code obj = inl (k', o') -> at_call s call k o -> at_call s call k' o'.
Proof.
  intros H A. destruct k; cbn [resume] in H; try discriminate; cbn [at_call] in A.
  - destruct A as (-> & _). destruct ((code =? ALREADY_EXISTS) && terminate).
    + destruct obj as [ob|]; [|discriminate]. destruct (nth_error objs ob) as [x|]; [|discriminate].
      destruct (ob_tid x =? tid); [discriminate|]. injection H as <- <-. cbn. eauto 10.
    + destruct (code =? OK); [|discriminate]. destruct obj; [|discriminate]. injection H as <- <-. cbn. eauto.
  - destruct A as ((t & ->) & _). injection H as <- <-. cbn. eauto 10.
  - destruct A as ((tid & t & ->) & _). destruct (code =? OK); [|discriminate]. destruct obj; [|discriminate]. injection H as <- <-. cbn. eauto.
  - destruct A as ((tid & t & ->) & _). destruct (code =? OK); [|discriminate]. injection H as <- <-. cbn. eauto.
  - destruct A as ((tid & t & ->) & _). injection H as <- <-. cbn. eauto 10.
  - destruct A as (ns & id & tid & -> & _). destruct (code =? OK); [|discriminate]. destruct obj; [|discriminate]. injection H as <- <-. cbn. eauto 10.
  - destruct A as ((ns & id & tid & ->) & _). destruct (code =? OK); [|discriminate]. injection H as <- <-. cbn. eauto 10.
  - destruct A as (-> & _). destruct obj; [|discriminate]. injection H as <- <-. cbn. eauto.
  - destruct A as (-> & _). injection H as <- <-. cbn. eauto 10.
Qed.
Definition th_at (calls : list rcall) (s : rshare) (t : rthread) : Prop :=
  match t with RIdle => True | RBusy c k o => exists call, nth_error calls c = Some call /\ at_call s call k o end.
Definition AtInv (s : rsys) : Prop := SysInv s /\ Forall (th_at (ry_calls s) (ry_share s)) (ry_threads s).
Lemma AtInv_step s e s' : AtInv s -> ry_step s e = Some s' -> AtInv s'.
Proof.
  intros (Iv & A) H. split; [exact (SysInv_step _ _ _ Iv H)|]. destruct Iv as [S B _]. apply step_cases in H.
  destruct H as [(i & c & Hi & ->)|(i & ch & c & k & o & sh & r & Hi & Ho & H)].
  - cbn [ry_threads ry_calls ry_share]. apply Forall_set.
    + eapply Forall_impl; [|exact A]. intros [|c1 k1 o1]; [tauto|]. cbn. intros (call & E & F). exists call. split; [|exact F].
      rewrite nth_error_app1; [exact E|]. apply nth_error_Some. congruence.
    + cbn. exists c. rewrite nth_error_app2, Nat.sub_diag by lia. split; [reflexivity|]. destruct c; cbn; eauto 10.
  - assert (Oo : op_ok (ry_share s) o) by exact (Forall_nth_error _ _ _ _ B Hi).
    destruct (Forall_nth_error _ _ _ _ A Hi) as (call & C1 & C2).
    destruct (op_step_facts _ _ _ _ _ _ _ Ho S Oo) as (_ & _ & L & _).
    assert (A' : Forall (th_at (ry_calls s) sh) (ry_threads s)).
    { eapply Forall_impl; [|exact A]. intros [|c1 k1 o1]; [tauto|]. cbn. intros (call1 & E & F). exists call1. split; [exact E|].
      eapply at_call_mono; eassumption. }
    destruct H as [(o' & -> & ->)|[(code & obj & k' & o' & -> & Er & ->)|(code & obj & code' & -> & Er & ->)]];
      cbn [set_th ry_threads ry_calls ry_share]; apply Forall_set; try exact A'.
    + exists call. split; [exact C1|]. eapply at_call_go; eassumption.
    + exists call. split; [exact C1|]. eapply at_call_next; [exact Er|]. eapply at_call_mono; eassumption.
    + exact I.
Qed.

(** The slot of a call of wdtSend or wdtReceiveStart is held, or left behind. *)
Definition holding (ns : Z) (k : nat) (id : Z) (ob : nat) (kt : kont) (o : rop) : Prop :=
  (kt = KSendInit ns id ob /\ o = OUser) \/ (kt = KSendRun ns id ob /\ o = OUser) \/
  (exists code, kt = KSendEnd ns id ob code /\ (o = ORelease Snd ns (One id) \/ o = ORelease2 Snd k (One id))).
Definition slot_ok (s : rsys) (ns : Z) (k : nat) (sd : side) (id : Z) (ob : nat) : Prop :=
  exists x call, nth_error (rs_objs (ry_share s)) ob = Some x /\ nth_error (ry_calls s) (ob_call x) = Some call /\
    match call with
    | CSend _ _ _ _ =>
        sd = Snd /\
        ((exists i kt o, nth_error (ry_threads s) i = Some (RBusy (ob_call x) kt o) /\ holding ns k id ob kt o) \/
         (exists code, In (ob_call x, KSendInit ns id ob, code) (ry_log s) /\ code <> OK))
    | CRecvStart _ _ _ =>
        sd = Rcv /\
        ((exists i kt, nth_error (ry_threads s) i = Some (RBusy (ob_call x) kt OUser) /\ (kt = KRecvInit ob \/ kt = KRecvAsync ob)) \/
         (exists code, (In (ob_call x, KRecvInit ob, code) (ry_log s) /\ code <> OK) \/ In (ob_call x, KRecvAsync ob, code) (ry_log s)))
    | _ => True
    end.
Definition SlotInv (s : rsys) : Prop :=
  AtInv s /\ forall ns k sd id ob, entry (ry_share s) ns k sd id ob -> slot_ok s ns k sd id ob.
Lemma nth_app_l {A} (l l' : list A) i x : nth_error l i = Some x -> nth_error (l ++ l') i = Some x.
Proof. intros H. rewrite nth_error_app1; [exact H|]. apply nth_error_Some. congruence. Qed.
Lemma SlotInv_step s e s' : SlotInv s -> ry_step s e = Some s' -> SlotInv s'.
Proof.
  intros (A & K) H. split; [exact (AtInv_step _ _ _ A H)|]. destruct A as (Iv & A). destruct Iv as [S B _].
  apply step_cases in H. destruct H as [(i & c & Hi & ->)|(i & ch & c & kt & o & sh & r & Hi & Ho & H)].
  - intros ns k sd id ob E. cbn [ry_share] in E. destruct (K ns k sd id ob E) as (x & call & X1 & X2 & X3).
    exists x, call. cbn [ry_share ry_calls ry_threads ry_log]. split; [exact X1|]. split; [apply nth_app_l, X2|].
    assert (Oth : forall i1 c1 k1 o1, nth_error (ry_threads s) i1 = Some (RBusy c1 k1 o1) ->
       nth_error (set_nth (ry_threads s) i (RBusy (length (ry_calls s)) (fst (begin c)) (snd (begin c)))) i1 = Some (RBusy c1 k1 o1)).
    { intros i1 c1 k1 o1 E1. rewrite nth_set_other; [exact E1|]. intros ->. congruence. }
    destruct call; auto.
    + destruct X3 as (-> & X3). split; [reflexivity|]. destruct X3 as [(i1 & k1 & o1 & X3 & X4)|X3]; [left|right; exact X3].
      exists i1, k1, o1. split; [apply Oth, X3|exact X4].
    + destruct X3 as (-> & X3). split; [reflexivity|]. destruct X3 as [(i1 & k1 & X3 & X4)|X3]; [left|right; exact X3].
      exists i1, k1. split; [apply Oth, X3|exact X4].
  - assert (Oo : op_ok (ry_share s) o) by exact (Forall_nth_error _ _ _ _ B Hi).
    destruct (op_step_facts _ _ _ _ _ _ _ Ho S Oo) as (S' & _ & L & _).
    destruct (step_objs _ _ _ _ _ _ _ Ho) as (objs & Eo).
    destruct (Forall_nth_error _ _ _ _ A Hi) as (call0 & C1 & C2).
    assert (Sh : ry_share s' = sh).
    { destruct H as [(o' & -> & ->)|[(code & obj & k' & o' & -> & Er & ->)|(code & obj & code' & -> & Er & ->)]]; reflexivity. }
    assert (Ca : ry_calls s' = ry_calls s).
    { destruct H as [(o' & -> & ->)|[(code & obj & k' & o' & -> & Er & ->)|(code & obj & code' & -> & Er & ->)]]; reflexivity. }
    assert (Lg : forall e, In e (ry_log s) -> In e (ry_log s')).
    { intros e1 He. destruct H as [(o' & -> & ->)|[(code & obj & k' & o' & -> & Er & ->)|(code & obj & code' & -> & Er & ->)]];
        cbn; auto. apply in_or_app. left. exact He. }
    assert (Oth : forall i1 t1, i1 <> i -> nth_error (ry_threads s) i1 = Some t1 -> nth_error (ry_threads s') i1 = Some t1).
    { intros i1 t1 Hne E1. destruct H as [(o' & -> & ->)|[(code & obj & k' & o' & -> & Er & ->)|(code & obj & code' & -> & Er & ->)]];
        cbn [set_th ry_threads]; rewrite nth_set_other by congruence; exact E1. }
    intros ns k sd id ob E. rewrite Sh in E.
    destruct (step_entries _ _ _ _ _ _ _ _ _ _ _ _ Ho S E) as [(E1 & E2)|(tid & -> & -> & -> & E2 & E3)].
    + destruct (K ns k sd id ob E1) as (x & call & X1 & X2 & X3). exists x, call. rewrite Sh, Ca.
      split; [rewrite Eo; apply nth_app_l, X1|]. split; [exact X2|]. destruct call; auto.
      * destruct X3 as (-> & X3). split; [reflexivity|].
        destruct X3 as [(i1 & k1 & o1 & X3 & X4)|(code & X3 & X4)]; [|right; exists code; auto].
        destruct (Nat.eqb_spec i1 i) as [->|Hne]; [|left; exists i1, k1, o1; split; [apply Oth; assumption|exact X4]].
        rewrite Hi in X3. injection X3 as E0 <- <-. destruct X4 as [(-> & ->)|[(-> & ->)|(code0 & -> & [-> | ->])]].
        -- cbn [op_step] in Ho. injection Ho as <- <-.
           destruct H as [(o' & [=] & _)|[(code & obj & k' & o' & [= <- <-] & Er & ->)|(code & obj & code' & [= <- <-] & Er & ->)]];
             cbn [resume] in Er; destruct (Z.eqb_spec (rc_code ch) OK) as [Ec|Ec]; try discriminate.
           ++ injection Er as <- <-. left. exists i, (KSendRun ns id ob), OUser. cbn [set_th ry_threads]. split.
              ** rewrite (nth_set_same _ _ _ _ Hi), E0. reflexivity.
              ** right. left. auto.
           ++ injection Er as <-. right. exists (rc_code ch). cbn [ry_log]. split; [|exact Ec]. apply in_or_app. right. left.
              rewrite E0. reflexivity.
        -- cbn [op_step] in Ho. injection Ho as <- <-.
           destruct H as [(o' & [=] & _)|[(code & obj & k' & o' & [= <- <-] & Er & ->)|(code & obj & code' & [= <- <-] & Er & ->)]];
             cbn [resume] in Er; try discriminate.
           injection Er as <- <-. left. exists i, (KSendEnd ns id ob (rc_code ch)), (ORelease Snd ns (One id)). cbn [set_th ry_threads]. split.
           ++ rewrite (nth_set_same _ _ _ _ Hi), E0. reflexivity.
           ++ right. right. exists (rc_code ch). auto.
        -- cbn [op_step] in Ho. destruct (rs_locked (ry_share s)); [discriminate|]. destruct E1 as (E1 & _). rewrite E1 in Ho.
           injection Ho as <- <-.
           destruct H as [(o' & [= <-] & ->)|[(code & obj & k' & o' & [=] & _)|(code & obj & code' & [=] & _)]].
           left. exists i, (KSendEnd ns id ob code0), (ORelease2 Snd k (One id)). cbn [set_th ry_threads]. split.
           ++ rewrite (nth_set_same _ _ _ _ Hi), E0. reflexivity.
           ++ right. right. exists code0. auto.
        -- exfalso. apply E2. reflexivity.
      * destruct X3 as (-> & X3). split; [reflexivity|].
        destruct X3 as [(i1 & k1 & X3 & X4)|(code & X3)]; [|right; exists code; destruct X3 as [(X3 & X4)|X3]; auto].
        destruct (Nat.eqb_spec i1 i) as [->|Hne]; [|left; exists i1, k1; split; [apply Oth; assumption|exact X4]].
        rewrite Hi in X3. injection X3 as E0 <- ->. cbn [op_step] in Ho. injection Ho as <- <-. destruct X4 as [-> | ->].
        -- destruct H as [(o' & [=] & _)|[(code & obj & k' & o' & [= <- <-] & Er & ->)|(code & obj & code' & [= <- <-] & Er & ->)]];
             cbn [resume] in Er; destruct (Z.eqb_spec (rc_code ch) OK) as [Ec|Ec]; try discriminate.
           ++ injection Er as <- <-. left. exists i, (KRecvAsync ob). cbn [set_th ry_threads]. split.
              ** rewrite (nth_set_same _ _ _ _ Hi), E0. reflexivity.
              ** auto.
           ++ injection Er as <-. right. exists (rc_code ch). cbn [ry_log]. left. split; [|exact Ec]. apply in_or_app. right. left.
              rewrite E0. reflexivity.
        -- destruct H as [(o' & [=] & _)|[(code & obj & k' & o' & [= <- <-] & Er & ->)|(code & obj & code' & [= <- <-] & Er & ->)]];
             cbn [resume] in Er; try discriminate.
           injection Er as <-. right. exists (rc_code ch). cbn [ry_log]. right. apply in_or_app. right. left. rewrite E0. reflexivity.
    + exists {| ob_side := sd; ob_tid := tid; ob_call := c |}, call0. cbn [ob_call]. rewrite Sh, Ca. split; [exact E3|]. split; [exact C1|].
      assert (Nm : forall n, (exists nc, nth_error (rs_heap (ry_share s)) k = Some nc /\ nc_name nc = n) -> n = ns).
      { intros n (nc & N1 & N2). destruct (so_map _ S ns k (lookup_in _ _ _ E2)) as (nc' & M1 & M2). congruence. }
      destruct H as [(o' & [=] & _)|[(code & obj & k' & o' & [= <- <-] & Er & ->)|(code & obj & code' & [= <- <-] & Er & ->)]].
      * cbn [set_th ry_threads ry_log].
        destruct kt; cbn [at_call creating releasing] in C2; try (destruct C2 as (_ & C2); tauto || discriminate C2).
        -- discriminate Er.
        -- destruct C2 as (-> & -> & -> & C2). apply Nm in C2. subst ns0. cbn in Er. injection Er as <- <-.
           split; [reflexivity|]. left. exists i. eexists. eexists. split; [exact (nth_set_same _ _ _ _ Hi)|]. left. auto.
        -- destruct C2 as ((tid' & t & ->) & -> & -> & C2). apply Nm in C2. subst ns0. cbn in Er. injection Er as <- <-.
           split; [reflexivity|]. left. exists i. eexists. eexists. split; [exact (nth_set_same _ _ _ _ Hi)|]. left. auto.
        -- destruct C2 as (ns1 & id1 & tid1 & -> & -> & -> & C2). cbn in Er. injection Er as <- <-.
           split; [reflexivity|]. left. exists i. eexists. split; [exact (nth_set_same _ _ _ _ Hi)|]. auto.
        -- destruct C2 as (ns1 & id1 & _ & []).
      * destruct kt; cbn [at_call creating releasing] in C2; try (destruct C2 as (_ & C2); tauto || discriminate C2).
        -- destruct call0; tauto.
        -- cbn in Er. discriminate.
        -- cbn in Er. discriminate.
        -- cbn in Er. discriminate.
        -- destruct C2 as (ns1 & id1 & _ & []).
Qed.
Lemma SlotInv_run max nsmax n evs s : ry_run evs (ry_init max nsmax n) = Some s -> SlotInv s.
Proof.
  intros H. refine (run_inv SlotInv SlotInv_step evs _ s _ H). split; [split|].
  - apply SysInv_init.
  - cbn. apply Forall_forall. intros t Ht. apply repeat_spec in Ht. subst t. exact I.
  - intros ns k sd id ob (E & _). discriminate E.
Qed.
Lemma send_slot max nsmax n evs s c ns key tid t : ry_run evs (ry_init max nsmax n) = Some s ->
  nth_error (ry_calls s) c = Some (CSend ns key tid t) -> returned_call s c -> (exists sd, has_slot sd s c) ->
  exists ns' id o code, In (c, KSendInit ns' id o, code) (ry_log s) /\ code <> OK.
Proof.
  intros H Hc (kt & cd & Hr) (sd & ns' & k & nc & id & o & x & H1 & H2 & H3 & H4 & <-).
  destruct (SlotInv_run _ _ _ _ _ H) as (_ & K).
  destruct (K ns' k sd id o) as (x' & call & X1 & X2 & X3); [split; [exact H1|eauto]|].
  assert (x' = x) by congruence. subst x'. assert (call = CSend ns key tid t) by congruence. subst call.
  destruct X3 as (_ & [(i & k1 & o1 & X3 & _)|(code & X3 & X4)]).
  - exfalso. eapply (Once_busy s (ob_call x) i k1 o1 (ob_call x, kt, cd)); [exact (Once_run _ _ _ _ _ H)|exact X3|exact Hr|reflexivity].
  - eauto 10.
Qed.
Lemma recv_slot max nsmax n evs s c ns id tid : ry_run evs (ry_init max nsmax n) = Some s ->
  nth_error (ry_calls s) c = Some (CRecvStart ns id tid) -> returned_call s c -> (exists sd, has_slot sd s c) ->
  exists o code, (In (c, KRecvInit o, code) (ry_log s) /\ code <> OK) \/ In (c, KRecvAsync o, code) (ry_log s).
Proof.
  intros H Hc (kt & cd & Hr) (sd & ns' & k & nc & id' & o & x & H1 & H2 & H3 & H4 & <-).
  destruct (SlotInv_run _ _ _ _ _ H) as (_ & K).
  destruct (K ns' k sd id' o) as (x' & call & X1 & X2 & X3); [split; [exact H1|eauto]|].
  assert (x' = x) by congruence. subst x'. assert (call = CRecvStart ns id tid) by congruence. subst call.
  destruct X3 as (_ & [(i & k1 & X3 & _)|(code & X3)]).
  - exfalso. eapply (Once_busy s (ob_call x) i k1 OUser (ob_call x, kt, cd)); [exact (Once_run _ _ _ _ _ H)|exact X3|exact Hr|reflexivity].
  - eauto 10.
Qed.
