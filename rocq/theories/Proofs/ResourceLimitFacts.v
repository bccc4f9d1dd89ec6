(** Limits, availability, and what a namespace taken away in the wrong moment leaves. *)
From Coq Require Import Lia Bool.
From Verif Require Export Proofs.ResourceFacts.
From Verif Require Import Proofs.SumFacts Proofs.QueueMonitorFacts Proofs.HistoryFacts.
Import ListNotations.
Open Scope Z_scope.

Definition gmax (sd : side) (s : rshare) : Z := g_max (get sd (rs_glob s)).
Definition lim_op (sd : side) (m : Z) (o : rop) : Prop :=
  match o with OLimit sd' n => sd' = sd -> 0 < n <= m | _ => True end.
Definition lim_ok (sd : side) (m : Z) (s : rshare) : Prop := 0 < gmax sd s <= m /\ g sd s <= m.
Lemma gmax_add sd sd' n s : gmax sd (add_num sd' n s) = gmax sd s.
Proof. unfold gmax, add_num. cbn [rs_glob set_glob]. rewrite get_put. destruct sd, sd'; reflexivity. Qed.
Lemma lim_ok_sub sd m sd' n s : 0 <= n -> lim_ok sd m s -> lim_ok sd m (add_num sd' (- n) s).
Proof. intros Hn (A & B). split; [rewrite gmax_add; exact A|]. rewrite g_add_num. destruct sd, sd'; lia. Qed.
Lemma lim_ok_same sd m s s' : rs_glob s' = rs_glob s -> lim_ok sd m s -> lim_ok sd m s'.
Proof. intros E. unfold lim_ok, gmax, g. rewrite E. tauto. Qed.
Lemma quota_num sd s nc : quota sd s nc = true -> 0 < gmax sd s -> g sd s < gmax sd s.
Proof.
  unfold quota, gmax, g. intros H Hm. apply andb_prop in H. destruct H as (H & _).
  apply negb_true_iff, andb_false_iff in H. destruct H as [H|H]; lia.
Qed.
Ltac skip_ns H k := destruct (nth_error (rs_heap _) k) as [nc|] eqn:En; [|discriminate H].
Lemma lim_step sd m s c used ch o s' r : op_step s c used ch o = Some (s', r) -> share_ok s -> op_ok s o ->
  lim_op sd m o -> lim_ok sd m s ->
  lim_ok sd m s' /\ match r with Go o' => lim_op sd m o' | Done _ _ => True end.
Proof.
  intros H S (_ & _ & O3) L K. destruct o; cbn [op_step lim_op] in *.
  - assert (Main : forall s1 k, rs_glob s1 = rs_glob s ->
              match nth_error (rs_heap s1) k with
              | Some nc => if quota sd0 s1 nc
                           then if rs_locked s then None else Some (add_num sd0 1 s1, Go (OCreate2 sd0 k id tid))
                           else if rs_locked s then None else Some (s1, Done QUOTA_EXCEEDED None)
              | None => None end = Some (s', r) ->
              lim_ok sd m s' /\ match r with Go o' => lim_op sd m o' | Done _ _ => True end).
    { intros s1 k E H1. pose proof (lim_ok_same sd m s s1 E K) as K1.
      destruct (nth_error (rs_heap s1) k) as [nc|]; [|discriminate].
      destruct (quota sd0 s1 nc) eqn:Eq; destruct (rs_locked s); try discriminate; injection H1 as <- <-; (split; [|exact I]); [|exact K1].
      destruct K1 as (A & B). split; [rewrite gmax_add; exact A|]. rewrite g_add_num.
      destruct sd, sd0; try lia; pose proof (quota_num _ _ _ Eq ltac:(lia)); lia. }
    destruct (lookup ns (rs_map s)) as [k|]; [apply (Main s k eq_refl H)|].
    destruct (rs_strict s); [|apply (Main (add_ns s ns) _ eq_refl H)].
    destruct (rs_locked s); [discriminate|]. injection H as <- <-. split; [exact K|exact I].
  - skip_ns H k. injection H as H. destruct (lookup id (po_map (pool_of sd0 nc))); [injection H as <- <-; split; [exact K|exact I]|].
    destruct (pool_quota (pool_of sd0 nc)); injection H as <- <-; (split; [|exact I]); [|exact K].
    apply (lim_ok_same sd m s); [rewrite set_pool_glob; reflexivity|exact K].
  - destruct (rs_locked s); [discriminate|]. injection H as <- <-. split; [apply (lim_ok_sub sd m sd0 1); [lia|exact K]|exact I].
  - destruct (rs_locked s); [discriminate|]. injection H as <- <-. split; [exact K|]. destruct (lookup ns (rs_map s)); [exact I|destruct w; exact I].
  - skip_ns H k. destruct (release w (rc_stale ch) (pool_of sd0 nc)) as (p, n). injection H as <- <-.
    split; [apply (lim_ok_same sd m s); [apply set_pool_glob|exact K]|destruct (n >? 0); [exact I|destruct w; exact I]].
  - destruct (rs_locked s); [discriminate|]. injection H as <- <-. split; [apply lim_ok_sub; assumption|exact I].
  - destruct (rs_locked s); [discriminate|]. injection H as <- <-. split; [exact K|]. destruct (lookup ns (rs_map s)); exact I.
  - skip_ns H k. injection H as <- <-. split; [exact K|exact I].
  - destruct (rs_locked s); [discriminate|]. injection H as <- <-. split; [|exact I].
    apply (lim_ok_same sd m s); [destruct (lookup ns (rs_map s)); reflexivity|exact K].
  - destruct (rs_locked s); [discriminate|]. injection H as H. destruct (lookup ns (rs_map s)); injection H as <- <-;
      (split; [apply (lim_ok_same sd m s); [reflexivity|exact K]|exact I]).
  - skip_ns H k. destruct (release All [] (pool_of Snd nc)) as (p, n). injection H as <- <-.
    split; [apply (lim_ok_same sd m s); [apply set_pool_glob|exact K]|exact I].
  - skip_ns H k. destruct (release All [] (pool_of Rcv nc)) as (p, n). injection H as <- <-.
    split; [apply (lim_ok_same sd m s); [apply set_pool_glob|exact K]|exact I].
  - destruct (rs_locked s); [discriminate|]. injection H as <- <-. destruct O3.
    split; [apply lim_ok_sub; [assumption|apply lim_ok_sub; assumption]|exact I].
  - destruct (used k); [discriminate|]. injection H as <- <-. split; [exact K|exact I].
  - destruct (rs_locked s); [discriminate|]. injection H as <- <-. split; [|exact I].
    destruct K as (A & B). unfold lim_ok, gmax, g in *. cbn [rs_glob set_glob]. rewrite !get_put.
    destruct sd, sd0; cbn [g_num g_max get] in *; auto.
  - destruct (rs_locked s); [discriminate|]. injection H as <- <-. split; [exact K|]. destruct (lookup ns (rs_map s)); exact I.
  - skip_ns H k. injection H as <- <-. split; [apply (lim_ok_same sd m s); [apply set_pool_glob|exact K]|exact I].
  - injection H as <- <-. split; [apply (lim_ok_same sd m s); [reflexivity|exact K]|exact I].
  - destruct (rs_locked s); [discriminate|]. injection H as <- <-. split; [apply (lim_ok_same sd m s); [reflexivity|exact K]|].
    destruct (map snd (rs_map s)); exact I.
  - skip_ns H k. destruct (release All [] (pool_of Snd nc)) as (p, n) eqn:Er. injection H as <- <-.
    destruct (release_ok _ _ _ _ _ Er (so_pools _ S Snd nc (nth_error_In _ _ En))) as (_ & _ & R & _).
    split; [|exact I]. apply lim_ok_sub; [exact R|]. apply (lim_ok_same sd m s); [apply set_pool_glob|exact K].
  - skip_ns H k. destruct (release All [] (pool_of Rcv nc)) as (p, n) eqn:Er. injection H as <- <-.
    destruct (release_ok _ _ _ _ _ Er (so_pools _ S Rcv nc (nth_error_In _ _ En))) as (_ & _ & R & _).
    split; [|destruct rest; exact I]. apply lim_ok_sub; [exact R|]. apply (lim_ok_same sd m s); [apply set_pool_glob|exact K].
  - injection H as <- <-. split; [apply (lim_ok_same sd m s); [reflexivity|exact K]|exact I].
  - injection H as <- <-. split; [exact K|exact I].
Qed.

(** Generic: an invariant of the shared state and of what each thread does, as
    long as the calls are of one kind. *)
Section Lift.
Context (Cok : rcall -> Prop) (P : rshare -> Prop) (Q : rshare -> rop -> Prop).
Context (Hbegin : forall s c, Cok c -> Q s (snd (begin c))).
Context (Hresume : forall s o, o = OUser \/ (exists sd ns id, o = ORelease sd ns (One id)) \/ (exists sd ns id tid, o = OCreate sd ns id tid) -> Q s o).
Context (Hstep : forall s c used ch o s' r, share_ok s -> op_ok s o -> P s -> Q s o -> op_step s c used ch o = Some (s', r) ->
           P s' /\ match r with Go o' => Q s' o' | Done _ _ => True end).
Context (Hother : forall s c used ch o s' r o1, share_ok s -> op_ok s o -> op_ok s o1 -> P s -> Q s o -> Q s o1 ->
           op_step s c used ch o = Some (s', r) -> Q s' o1).
Definition th_Q (s : rshare) (t : rthread) : Prop := match t with RBusy _ _ o => Q s o | RIdle => True end.
Definition Lifted (s : rsys) : Prop :=
  SysInv s /\ (Forall Cok (ry_calls s) -> P (ry_share s) /\ Forall (th_Q (ry_share s)) (ry_threads s)).
Lemma Lifted_step s e s' : Lifted s -> ry_step s e = Some s' -> Lifted s'.
Proof.
  intros (I0 & K) H. split; [exact (SysInv_step _ _ _ I0 H)|]. destruct I0 as [A B _].
  apply step_cases in H. destruct H as [(i & c & Hi & ->)|(i & ch & c & k & o & sh & r & Hi & Ho & H)].
  - intros Hc. cbn [ry_calls] in Hc. apply Forall_app in Hc. destruct Hc as (Hc & Hc'). inversion Hc'; subst.
    destruct (K Hc) as (K1 & K2). split; [exact K1|]. cbn [ry_threads ry_share]. apply Forall_set; [exact K2|].
    apply Hbegin. assumption.
  - intros Hc.
    assert (Hc' : Forall Cok (ry_calls s)).
    { destruct H as [(o' & -> & ->)|[(code & obj & k' & o' & -> & Er & ->)|(code & obj & code' & -> & Er & ->)]]; exact Hc. }
    destruct (K Hc') as (K1 & K2). assert (Ko : Q (ry_share s) o) by exact (Forall_nth_error _ _ _ _ K2 Hi).
    assert (Oo : op_ok (ry_share s) o) by exact (Forall_nth_error _ _ _ _ B Hi).
    destruct (Hstep _ _ _ _ _ _ _ A Oo K1 Ko Ho) as (S1 & S2).
    assert (K2' : Forall (th_Q sh) (ry_threads s)).
    { rewrite Forall_forall in K2, B |- *. intros [|c1 k1 o1] Hin; [exact I|]. specialize (K2 _ Hin). specialize (B _ Hin).
      cbn in K2, B |- *. eapply Hother; [exact A|exact Oo|exact B|exact K1|exact Ko|exact K2|exact Ho]. }
    destruct H as [(o' & -> & ->)|[(code & obj & k' & o' & -> & Er & ->)|(code & obj & code' & -> & Er & ->)]];
      (split; [exact S1|]); cbn [set_th ry_threads ry_share]; apply Forall_set; auto.
    + apply Hresume. exact (resume_op _ _ _ _ _ _ Er).
Qed.
Lemma Lifted_run max nsmax n evs s : P (ry_share (ry_init max nsmax n)) -> ry_run evs (ry_init max nsmax n) = Some s -> Lifted s.
Proof.
  intros Hp. refine (run_inv Lifted Lifted_step evs _ s _). split; [apply SysInv_init|]. intros _. split; [exact Hp|].
  cbn. apply Forall_forall. intros t Ht. apply repeat_spec in Ht. subst t. exact I.
Qed.
End Lift.

Lemma limits_hold max nsmax n evs s sd m : ry_run evs (ry_init max nsmax n) = Some s ->
  0 < get sd max <= m -> Forall (within sd m) (ry_calls s) -> live sd s <= m /\ counter sd s <= m.
Proof.
  intros H Hm Hc.
  assert (L : Lifted (within sd m) (lim_ok sd m) (fun _ => lim_op sd m) s).
  { refine (Lifted_run (within sd m) (lim_ok sd m) (fun _ => lim_op sd m) _ _ _ _ max nsmax n evs s _ H).
    - intros _ c. destruct c; cbn; tauto.
    - intros _ o [->|[(sd1 & ns & id & ->)|(sd1 & ns & id & tid & ->)]]; exact I.
    - intros s0 c used ch o s' r S O K L Hs. exact (lim_step _ _ _ _ _ _ _ _ _ Hs S O L K).
    - auto.
    - destruct sd; cbn in *; unfold lim_ok, gmax, g; cbn; lia. }
  destruct L as (Iv & L). destruct (L Hc) as ((_ & L1) & _). unfold counter. unfold g in L1. split; [|exact L1].
  pose proof (si_sum _ Iv sd) as S. pose proof (flight_nonneg s sd Iv). unfold owed in S. rewrite live_heap.
  unfold g in S. lia.
Qed.

(** The limit of one namespace. *)
Definition ns_ok (sd : side) (ns m : Z) (s : rshare) : Prop :=
  0 < get sd (rs_nsmax s) <= m /\
  forall nc, In nc (rs_heap s) -> nc_name nc = ns -> 0 < po_max (pool_of sd nc) <= m /\ po_num (pool_of sd nc) <= m.
Definition ns_op (sd : side) (ns m : Z) (s : rshare) (o : rop) : Prop :=
  match o with
  | ONsLimit sd' ns' n => sd' = sd -> ns' = ns -> 0 < n <= m
  | ONsLimit2 sd' k n => sd' = sd -> (forall nc, nth_error (rs_heap s) k = Some nc -> nc_name nc = ns -> 0 < n <= m)
  | _ => True
  end.
Lemma add_ns_nsok sd ns m s ns' : ns_ok sd ns m s -> ns_ok sd ns m (add_ns s ns').
Proof.
  intros (A & B). split; [exact A|]. intros nc Hin En. cbn [add_ns set_map set_heap rs_heap] in Hin.
  apply in_app_or in Hin. destruct Hin as [Hin|[<-|[]]]; [auto|]. destruct sd; cbn in *; lia.
Qed.
Lemma ns_ok_same sd ns m s s' : rs_heap s' = rs_heap s -> rs_nsmax s' = rs_nsmax s -> ns_ok sd ns m s -> ns_ok sd ns m s'.
Proof. intros E1 E2. unfold ns_ok. rewrite E1, E2. tauto. Qed.
Lemma set_pool_nsmax sd k s p : rs_nsmax (set_pool sd k s p) = rs_nsmax s.
Proof. unfold set_pool. destruct (nth_error (rs_heap s) k); reflexivity. Qed.
Lemma set_pool_nsok sd ns m sd' k s p nc : nth_error (rs_heap s) k = Some nc -> ns_ok sd ns m s ->
  (sd' = sd -> nc_name nc = ns -> 0 < po_max p <= m /\ po_num p <= m) -> ns_ok sd ns m (set_pool sd' k s p).
Proof.
  intros En (A & B) C. split; [rewrite set_pool_nsmax; exact A|]. rewrite (set_pool_heap _ _ _ _ _ En).
  intros nc' Hin Hn. apply in_set_nth in Hin. destruct Hin as [->|Hin]; [|auto]. cbn [with_pool nc_name] in Hn.
  rewrite pool_with. specialize (B nc (nth_error_In _ _ En) Hn). destruct sd, sd'; auto.
Qed.
Lemma release_nsok sd ns m s k nc sd' w st p n : nth_error (rs_heap s) k = Some nc -> share_ok s -> ns_ok sd ns m s ->
  release w st (pool_of sd' nc) = (p, n) -> ns_ok sd ns m (set_pool sd' k s p).
Proof.
  intros En S K Er. pose proof (so_pools _ S sd' nc (nth_error_In _ _ En)) as P.
  destruct (release_ok _ _ _ _ _ Er P) as ((R1 & _) & R2 & R3 & R4). destruct P as (P1 & _).
  apply (set_pool_nsok sd ns m sd' k s p nc En K). intros -> Hn. destruct (proj2 K nc (nth_error_In _ _ En) Hn) as (K1 & K2).
  rewrite R4. split; [exact K1|]. lia.
Qed.
Lemma set_pool_name sd k s p j : forall nc, nth_error (rs_heap (set_pool sd k s p)) j = Some nc ->
  exists nc', nth_error (rs_heap s) j = Some nc' /\ nc_name nc' = nc_name nc.
Proof.
  intros nc. unfold set_pool. destruct (nth_error (rs_heap s) k) as [nk|] eqn:En; [|eauto].
  cbn [set_heap rs_heap]. destruct (Nat.eqb_spec k j) as [->|Hne].
  - rewrite (nth_set_same _ _ _ _ En). intros [= <-]. eauto.
  - rewrite nth_set_other by exact Hne. eauto.
Qed.
(** Controllers keep their names. *)
Lemma step_names s c used ch o s' r k ncx : op_step s c used ch o = Some (s', r) -> (k < length (rs_heap s))%nat ->
  nth_error (rs_heap s') k = Some ncx -> exists ncx', nth_error (rs_heap s) k = Some ncx' /\ nc_name ncx' = nc_name ncx.
Proof.
  intros H Hk Hn.
  assert (An : forall ns, nth_error (rs_heap (add_ns s ns)) k = Some ncx -> exists ncx', nth_error (rs_heap s) k = Some ncx' /\ nc_name ncx' = nc_name ncx).
  { intros ns. cbn [add_ns set_map set_heap rs_heap]. rewrite nth_error_app1 by exact Hk. eauto. }
  destruct o; cbn [op_step] in H.
  - destruct (lookup ns (rs_map s)) as [j|].
    + destruct (nth_error (rs_heap s) j); [|discriminate]. destruct (quota _ _ _), (rs_locked s); try discriminate;
        injection H as <- <-; eauto.
    + destruct (rs_strict s).
      * destruct (rs_locked s); [discriminate|]. injection H as <- <-. eauto.
      * destruct (nth_error (rs_heap (add_ns s ns)) (length (rs_heap s))); [|discriminate]. destruct (quota _ _ _), (rs_locked s); try discriminate;
          injection H as <- <-; apply (An ns Hn).
  - skip_ns H k0. injection H as H. destruct (lookup id (po_map (pool_of sd nc))); [injection H as <- <-; eauto|].
    destruct (pool_quota _); injection H as <- <-; [|eauto]. apply set_pool_name in Hn. exact Hn.
  - destruct (rs_locked s); [discriminate|]. injection H as <- <-. eauto.
  - destruct (rs_locked s); [discriminate|]. injection H as <- <-. eauto.
  - skip_ns H k0. destruct (release _ _ _) as (p, n). injection H as <- <-. apply set_pool_name in Hn. exact Hn.
  - destruct (rs_locked s); [discriminate|]. injection H as <- <-. eauto.
  - destruct (rs_locked s); [discriminate|]. injection H as <- <-. eauto.
  - skip_ns H k0. injection H as <- <-. eauto.
  - destruct (rs_locked s); [discriminate|]. injection H as <- <-. destruct (lookup ns (rs_map s)); [eauto|apply (An ns Hn)].
  - destruct (rs_locked s); [discriminate|]. injection H as H. destruct (lookup ns (rs_map s)); injection H as <- <-; eauto.
  - skip_ns H k0. destruct (release _ _ _) as (p, n). injection H as <- <-. apply set_pool_name in Hn. exact Hn.
  - skip_ns H k0. destruct (release _ _ _) as (p, n). injection H as <- <-. apply set_pool_name in Hn. exact Hn.
  - destruct (rs_locked s); [discriminate|]. injection H as <- <-. eauto.
  - destruct (used k0); [discriminate|]. injection H as <- <-. eauto.
  - destruct (rs_locked s); [discriminate|]. injection H as <- <-. eauto.
  - destruct (rs_locked s); [discriminate|]. injection H as <- <-. eauto.
  - skip_ns H k0. injection H as <- <-. apply set_pool_name in Hn. exact Hn.
  - injection H as <- <-. eauto.
  - destruct (rs_locked s); [discriminate|]. injection H as <- <-. eauto.
  - skip_ns H k0. destruct (release _ _ _) as (p, n). injection H as <- <-. apply set_pool_name in Hn. exact Hn.
  - skip_ns H k0. destruct (release _ _ _) as (p, n). injection H as <- <-. apply set_pool_name in Hn. exact Hn.
  - injection H as <- <-. eauto.
  - injection H as <- <-. eauto.
Qed.
Lemma pool_quota_num p : pool_quota p = true -> 0 < po_max p -> po_num p < po_max p.
Proof.
  unfold pool_quota. intros H Hm. apply negb_true_iff, andb_false_iff in H. destruct H as [H|H]; lia.
Qed.
Lemma ns_step sd ns m s c used ch o s' r : op_step s c used ch o = Some (s', r) -> share_ok s -> op_ok s o ->
  ns_op sd ns m s o -> ns_ok sd ns m s ->
  ns_ok sd ns m s' /\ match r with Go o' => ns_op sd ns m s' o' | Done _ _ => True end.
Proof.
  intros H S (O1 & _ & O3) L K. destruct o; cbn [op_step ns_op] in *.
  - assert (Main : forall s1 k, ns_ok sd ns m s1 ->
              match nth_error (rs_heap s1) k with
              | Some nc => if quota sd0 s1 nc
                           then if rs_locked s then None else Some (add_num sd0 1 s1, Go (OCreate2 sd0 k id tid))
                           else if rs_locked s then None else Some (s1, Done QUOTA_EXCEEDED None)
              | None => None end = Some (s', r) ->
              ns_ok sd ns m s' /\ match r with Go o' => ns_op sd ns m s' o' | Done _ _ => True end).
    { intros s1 k K1 H1. destruct (nth_error (rs_heap s1) k) as [nc|]; [|discriminate].
      destruct (quota sd0 s1 nc) eqn:Eq; destruct (rs_locked s); try discriminate; injection H1 as <- <-; (split; [|exact I]);
        [|exact K1]. apply (ns_ok_same sd ns m s1); auto. }
    destruct (lookup ns0 (rs_map s)) as [k|]; [apply (Main s k K H)|].
    destruct (rs_strict s); [|apply (Main (add_ns s ns0) _ (add_ns_nsok _ _ _ _ _ K) H)].
    destruct (rs_locked s); [discriminate|]. injection H as <- <-. split; [exact K|exact I].
  - skip_ns H k. injection H as H. destruct (lookup id (po_map (pool_of sd0 nc))); [injection H as <- <-; split; [exact K|exact I]|].
    destruct (pool_quota (pool_of sd0 nc)) eqn:Eq; injection H as <- <-; (split; [|exact I]); [|exact K].
    apply (set_pool_nsok sd ns m sd0 k _ _ nc); [exact En|apply (ns_ok_same sd ns m s); auto|].
    intros -> Hn. destruct (proj2 K nc (nth_error_In _ _ En) Hn) as (K1 & K2). cbn [po_num po_max].
    pose proof (pool_quota_num _ Eq ltac:(lia)). lia.
  - destruct (rs_locked s); [discriminate|]. injection H as <- <-. split; [apply (ns_ok_same sd ns m s); auto|exact I].
  - destruct (rs_locked s); [discriminate|]. injection H as <- <-. split; [exact K|]. destruct (lookup ns0 (rs_map s)); [exact I|destruct w; exact I].
  - skip_ns H k. destruct (release w (rc_stale ch) (pool_of sd0 nc)) as (p, n) eqn:Er. injection H as <- <-.
    split; [eapply release_nsok; eassumption|destruct (n >? 0); [exact I|destruct w; exact I]].
  - destruct (rs_locked s); [discriminate|]. injection H as <- <-. split; [apply (ns_ok_same sd ns m s); auto|exact I].
  - destruct (rs_locked s); [discriminate|]. injection H as <- <-. split; [exact K|]. destruct (lookup ns0 (rs_map s)); exact I.
  - skip_ns H k. injection H as <- <-. split; [exact K|exact I].
  - destruct (rs_locked s); [discriminate|]. injection H as <- <-. split; [|exact I].
    destruct (lookup ns0 (rs_map s)); [exact K|apply add_ns_nsok, K].
  - destruct (rs_locked s); [discriminate|]. injection H as H. destruct (lookup ns0 (rs_map s)); injection H as <- <-;
      (split; [apply (ns_ok_same sd ns m s); auto|exact I]).
  - skip_ns H k. destruct (release All [] (pool_of Snd nc)) as (p, n) eqn:Er. injection H as <- <-.
    split; [eapply release_nsok; eassumption|exact I].
  - skip_ns H k. destruct (release All [] (pool_of Rcv nc)) as (p, n) eqn:Er. injection H as <- <-.
    split; [eapply release_nsok; eassumption|exact I].
  - destruct (rs_locked s); [discriminate|]. injection H as <- <-. split; [apply (ns_ok_same sd ns m s); auto|exact I].
  - destruct (used k); [discriminate|]. injection H as <- <-. split; [exact K|exact I].
  - destruct (rs_locked s); [discriminate|]. injection H as <- <-. split; [apply (ns_ok_same sd ns m s); auto|exact I].
  - destruct (rs_locked s); [discriminate|]. injection H as <- <-. split; [exact K|]. destruct (lookup ns0 (rs_map s)) as [k|] eqn:El; [|exact I].
    cbn. intros -> nc Hn Hname. apply L; [reflexivity|]. destruct (so_map _ S ns0 k (lookup_in _ _ _ El)) as (nc' & E1 & E2). congruence.
  - skip_ns H k. injection H as <- <-. split; [|exact I].
    apply (set_pool_nsok sd ns m sd0 k s _ nc En K). intros -> Hn. cbn [po_max po_num].
    destruct (proj2 K nc (nth_error_In _ _ En) Hn) as (K1 & K2). specialize (L eq_refl nc eq_refl Hn). lia.
  - injection H as <- <-. split; [apply (ns_ok_same sd ns m s); auto|exact I].
  - destruct (rs_locked s); [discriminate|]. injection H as <- <-. split; [apply (ns_ok_same sd ns m s); auto|].
    destruct (map snd (rs_map s)); exact I.
  - skip_ns H k. destruct (release All [] (pool_of Snd nc)) as (p, n) eqn:Er. injection H as <- <-.
    split; [|exact I]. apply (ns_ok_same sd ns m (set_pool Snd k s p)); auto. eapply release_nsok; eassumption.
  - skip_ns H k. destruct (release All [] (pool_of Rcv nc)) as (p, n) eqn:Er. injection H as <- <-.
    split; [|destruct rest; exact I]. apply (ns_ok_same sd ns m (set_pool Rcv k s p)); auto. eapply release_nsok; eassumption.
  - injection H as <- <-. split; [apply (ns_ok_same sd ns m s); auto|exact I].
  - injection H as <- <-. split; [exact K|exact I].
Qed.
Lemma ns_limits_hold max nsmax n evs s sd ns m k nc : ry_run evs (ry_init max nsmax n) = Some s ->
  0 < get sd nsmax <= m -> Forall (ns_within sd ns m) (ry_calls s) ->
  nth_error (rs_heap (ry_share s)) k = Some nc -> nc_name nc = ns -> live_in sd s k <= m.
Proof.
  intros H Hm Hc Hk Hn.
  assert (L : Lifted (ns_within sd ns m) (ns_ok sd ns m) (ns_op sd ns m) s).
  { refine (Lifted_run (ns_within sd ns m) (ns_ok sd ns m) (ns_op sd ns m) _ _ _ _ max nsmax n evs s _ H).
    - intros s0 c. destruct c; cbn; tauto.
    - intros s0 o [->|[(sd1 & ns1 & id & ->)|(sd1 & ns1 & id & tid & ->)]]; exact I.
    - intros s0 c used ch o s' r S O K L Hs. exact (ns_step _ _ _ _ _ _ _ _ _ _ Hs S O L K).
    - intros s0 c used ch o s' r o1 S O O1 K L L1 Hs. destruct o1; cbn in L1 |- *; auto.
      intros Hsd nc1 E1 E2. destruct (step_names _ _ _ _ _ _ _ k0 nc1 Hs) as (nc2 & N1 & N2); [|exact E1|].
      + apply (proj1 O1). reflexivity.
      + apply (L1 Hsd nc2 N1). congruence.
    - split; [exact Hm|]. intros nc1 []. }
  destruct L as (Iv & L). destruct (L Hc) as ((_ & L1) & _). unfold live_in. rewrite Hk.
  destruct (L1 nc (nth_error_In _ _ Hk) Hn) as (_ & L2).
  destruct (so_pools _ (si_share _ Iv) sd nc (nth_error_In _ _ Hk)) as (P & _). lia.
Qed.
