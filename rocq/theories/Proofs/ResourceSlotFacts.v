(** A slot given back can be taken again; a slot stranded stays so. *)
From Coq Require Import Lia Bool.
From Verif Require Export Proofs.ResourceLimitFacts.
From Verif Require Import Proofs.SumFacts Proofs.QueueMonitorFacts Proofs.HistoryFacts.
Import ListNotations.
Open Scope Z_scope.

(** Who holds the lock of the controller over several sections: shutdown(). *)
Definition op_lock (o : rop) : Z := match o with OShutS _ _ | OShutR _ _ | OShutEnd => 1 | _ => 0 end.
Definition th_lock (t : rthread) : Z := match t with RBusy _ _ o => op_lock o | RIdle => 0 end.
Definition lock (s : rshare) : Z := if rs_locked s then 1 else 0.
Lemma shut_lock rest : op_lock (shut_next rest) = 1. Proof. destruct rest; reflexivity. Qed.
Lemma lock_step s c used ch o s' r : op_step s c used ch o = Some (s', r) ->
  (op_lock o = 1 -> lock s = 1) ->
  lock s' - match r with Go o' => op_lock o' | Done _ _ => 0 end = lock s - op_lock o.
Proof.
  intros H Hl.
  assert (Sp : forall sd k p, lock (set_pool sd k s p) = lock s).
  { intros. unfold lock. rewrite set_pool_locked. reflexivity. }
  destruct o; cbn [op_step op_lock] in *.
  - destruct (lookup ns (rs_map s)) as [k|].
    + destruct (nth_error (rs_heap s) k) as [nc|]; [|discriminate]. destruct (quota sd s nc), (rs_locked s) eqn:E; try discriminate;
        injection H as <- <-; unfold lock; cbn; rewrite ?E; reflexivity.
    + destruct (rs_strict s).
      * destruct (rs_locked s) eqn:E; [discriminate|]. injection H as <- <-. reflexivity.
      * destruct (nth_error (rs_heap (add_ns s ns)) _) as [nc|]; [|discriminate].
        destruct (quota sd (add_ns s ns) nc), (rs_locked s) eqn:E; try discriminate; injection H as <- <-; unfold lock; cbn; rewrite ?E; reflexivity.
  - skip_ns H k. injection H as H. destruct (lookup id (po_map (pool_of sd nc))); [injection H as <- <-; reflexivity|].
    destruct (pool_quota (pool_of sd nc)); injection H as <- <-; [|reflexivity].
    unfold lock. rewrite set_pool_locked. reflexivity.
  - destruct (rs_locked s) eqn:E; [discriminate|]. injection H as <- <-. unfold lock. cbn. rewrite E. reflexivity.
  - destruct (rs_locked s) eqn:E; [discriminate|]. injection H as <- <-. destruct (lookup ns (rs_map s)); reflexivity.
  - skip_ns H k. destruct (release w (rc_stale ch) (pool_of sd nc)) as (p, n). injection H as <- <-.
    rewrite Sp. destruct (n >? 0); reflexivity.
  - destruct (rs_locked s) eqn:E; [discriminate|]. injection H as <- <-. unfold lock. cbn. rewrite E. reflexivity.
  - destruct (rs_locked s) eqn:E; [discriminate|]. injection H as <- <-. destruct (lookup ns (rs_map s)); reflexivity.
  - skip_ns H k. injection H as <- <-. reflexivity.
  - destruct (rs_locked s) eqn:E; [discriminate|]. injection H as <- <-. unfold lock. destruct (lookup ns (rs_map s)); cbn; rewrite ?E; reflexivity.
  - destruct (rs_locked s) eqn:E; [discriminate|]. injection H as H. unfold lock. destruct (lookup ns (rs_map s)); injection H as <- <-; cbn; rewrite ?E; reflexivity.
  - skip_ns H k. destruct (release All [] (pool_of Snd nc)) as (p, n). injection H as <- <-. rewrite Sp. reflexivity.
  - skip_ns H k. destruct (release All [] (pool_of Rcv nc)) as (p, n). injection H as <- <-. rewrite Sp. reflexivity.
  - destruct (rs_locked s) eqn:E; [discriminate|]. injection H as <- <-. unfold lock. cbn. rewrite E. reflexivity.
  - destruct (used k); [discriminate|]. injection H as <- <-. reflexivity.
  - destruct (rs_locked s) eqn:E; [discriminate|]. injection H as <- <-. unfold lock. cbn. rewrite E. reflexivity.
  - destruct (rs_locked s) eqn:E; [discriminate|]. injection H as <- <-. destruct (lookup ns (rs_map s)); reflexivity.
  - skip_ns H k. injection H as <- <-. rewrite Sp. reflexivity.
  - injection H as <- <-. reflexivity.
  - destruct (rs_locked s) eqn:E; [discriminate|]. injection H as <- <-. rewrite shut_lock. unfold lock. rewrite E. reflexivity.
  - skip_ns H k. destruct (release All [] (pool_of Snd nc)) as (p, n). injection H as <- <-.
    change (lock (add_num Snd (- n) (set_pool Snd k s p))) with (lock (set_pool Snd k s p)). rewrite Sp. reflexivity.
  - skip_ns H k. destruct (release All [] (pool_of Rcv nc)) as (p, n). injection H as <- <-.
    change (lock (add_num Rcv (- n) (set_pool Rcv k s p))) with (lock (set_pool Rcv k s p)). rewrite Sp, shut_lock. reflexivity.
  - injection H as <- <-. rewrite (Hl eq_refl). reflexivity.
  - injection H as <- <-. reflexivity.
Qed.
Definition LockInv (s : rsys) : Prop := zsum th_lock (ry_threads s) = lock (ry_share s).
Lemma th_lock_pos t : 0 <= th_lock t. Proof. destruct t as [|c k o]; [cbn; lia|destruct o; cbn; lia]. Qed.
Lemma lock_one s i t : LockInv s -> nth_error (ry_threads s) i = Some t -> th_lock t = 1 -> lock (ry_share s) = 1.
Proof.
  intros L H E. unfold LockInv in L. pose proof (zsum_set th_lock _ i t RIdle H) as Z. change (th_lock RIdle) with 0 in Z.
  assert (0 <= zsum th_lock (set_nth (ry_threads s) i RIdle)) by (apply zsum_nonneg; intros; apply th_lock_pos).
  unfold lock in *. destruct (rs_locked (ry_share s)); lia.
Qed.
Lemma LockInv_step s e s' : LockInv s -> ry_step s e = Some s' -> LockInv s'.
Proof.
  intros L H. apply step_cases in H. destruct H as [(i & c & Hi & ->)|(i & ch & c & k & o & sh & r & Hi & Ho & H)].
  - unfold LockInv in *. cbn [ry_threads ry_share].
    pose proof (zsum_set th_lock _ i _ (RBusy (length (ry_calls s)) (fst (begin c)) (snd (begin c))) Hi) as Z.
    assert (E : th_lock (RBusy (length (ry_calls s)) (fst (begin c)) (snd (begin c))) = 0) by (destruct c; reflexivity).
    rewrite E in Z. cbn [th_lock] in Z. lia.
  - assert (F : lock sh - match r with Go o' => op_lock o' | Done _ _ => 0 end = lock (ry_share s) - op_lock o).
    { eapply lock_step; [exact Ho|]. intros E. exact (lock_one s i _ L Hi E). }
    unfold LockInv in *.
    destruct H as [(o' & -> & ->)|[(code & obj & k' & o' & -> & Er & ->)|(code & obj & code' & -> & Er & ->)]];
      cbn [set_th ry_threads ry_share].
    + pose proof (zsum_set th_lock _ i _ (RBusy c k o') Hi) as Z. cbn [th_lock] in Z. lia.
    + pose proof (zsum_set th_lock _ i _ (RBusy c k' o') Hi) as Z.
      assert (E : op_lock o' = 0).
      { destruct (resume_op _ _ _ _ _ _ Er) as [->|[(sd & ns & id & ->)|(sd & ns & id & tid & ->)]]; reflexivity. }
      cbn [th_lock] in Z. lia.
    + pose proof (zsum_set th_lock _ i _ RIdle Hi) as Z. cbn [th_lock] in Z. lia.
Qed.
Lemma idle_unlocked max nsmax n evs s : ry_run evs (ry_init max nsmax n) = Some s -> all_idle s -> rs_locked (ry_share s) = false.
Proof.
  intros H A.
  assert (L : LockInv s).
  { refine (run_inv LockInv LockInv_step evs _ s _ H). unfold LockInv. cbn. rewrite zsum_repeat. cbn. lia. }
  unfold LockInv in L. rewrite (zsum_ext _ (fun _ => 0)) in L.
  - unfold lock in L. destruct (rs_locked (ry_share s)); [|reflexivity]. exfalso. revert L. clear. induction (ry_threads s); cbn; lia.
  - intros t Ht. rewrite (A t Ht). reflexivity.
Qed.
Lemma idle_flight sd s : all_idle s -> in_flight sd s = 0.
Proof.
  intros A. unfold in_flight. rewrite (zsum_ext _ (fun _ => 0)).
  - clear. induction (ry_threads s); cbn; lia.
  - intros t Ht. rewrite (A t Ht). reflexivity.
Qed.
(** A run that takes no namespace away does not crash. *)
Lemma keeps_crash s c used ch o s' r : op_step s c used ch o = Some (s', r) -> op_keeps o -> rs_crash s' = rs_crash s.
Proof.
  intros H K.
  assert (Sp : forall sd k p s, rs_crash (set_pool sd k s p) = rs_crash s).
  { intros. unfold set_pool. destruct (nth_error _ k); reflexivity. }
  destruct o; cbn [op_step op_keeps] in *; try tauto;
    repeat match goal with
           | H : context [match lookup ?x ?m with _ => _ end] |- _ => destruct (lookup x m)
           | H : context [match nth_error ?x ?m with _ => _ end] |- _ => destruct (nth_error x m)
           | H : context [if ?b then _ else _] |- _ => destruct b
           | H : context [let '(_, _) := release ?a ?b ?c in _] |- _ => destruct (release a b c)
           end; try discriminate; injection H as <- <-; rewrite ?Sp; reflexivity.
Qed.
Lemma no_crash max nsmax n evs s : ry_run evs (ry_init max nsmax n) = Some s -> Forall keeps (ry_calls s) ->
  rs_crash (ry_share s) = false.
Proof.
  intros H Hc.
  assert (L : Lifted keeps (fun s => rs_crash s = false) (fun _ => op_keeps) s).
  { refine (Lifted_run _ _ _ _ _ _ _ max nsmax n evs s eq_refl H).
    - intros s0 c. apply begin_keeps.
    - intros s0 o [->|[(sd1 & ns & id & ->)|(sd1 & ns & id & tid & ->)]]; exact I.
    - intros s0 c used ch o s' r S O P Q Hs. split; [rewrite (keeps_crash _ _ _ _ _ _ _ Hs Q); exact P|].
      destruct r as [o'|]; [|exact I]. clear S O P.
      destruct o; cbn [op_step op_keeps] in *; try tauto;
        repeat match goal with
           | H : context [match lookup ?x ?m with _ => _ end] |- _ => destruct (lookup x m)
           | H : context [match nth_error ?x ?m with _ => _ end] |- _ => destruct (nth_error x m)
           | H : context [if ?b then _ else _] |- _ => destruct b
           | H : context [let '(_, _) := release ?a ?b ?c in _] |- _ => destruct (release a b c)
           end; try discriminate; injection Hs as <- <-; exact I.
    - auto. }
  destruct L as (_ & L). exact (proj1 (L Hc)).
Qed.

Lemma idle_nth s i : all_idle s -> (i < length (ry_threads s))%nat -> nth_error (ry_threads s) i = Some RIdle.
Proof.
  intros A H. destruct (nth_error (ry_threads s) i) as [t|] eqn:E.
  - rewrite (A t (nth_error_In _ _ E)). reflexivity.
  - apply nth_error_None in E. lia.
Qed.
Lemma set_idle s i : all_idle s -> set_nth (ry_threads s) i RIdle = ry_threads s.
Proof.
  unfold all_idle. generalize (ry_threads s). intros l. revert i. induction l as [|t l IH]; intros [|i] A; cbn; try reflexivity.
  - rewrite (A t (or_introl eq_refl)). reflexivity.
  - f_equal. apply IH. intros t' Ht. apply A. right. exact Ht.
Qed.
Lemma set_set {A} (l : list A) i a b : set_nth (set_nth l i a) i b = set_nth l i b.
Proof. revert i. induction l as [|x l IH]; intros [|i]; cbn; try reflexivity. f_equal. apply IH. Qed.

Ltac go_thread Hi :=
  cbn [ry_run ry_step set_th ry_share ry_threads ry_calls ry_log rs_crash];
  rewrite ?(nth_set_same _ _ _ _ Hi).
Definition quiet : rchoice := {| rc_code := 0; rc_stale := [] |}.

Lemma create_alone s i sd ns id tid k nc :
  rs_crash (ry_share s) = false -> rs_locked (ry_share s) = false -> all_idle s -> (i < length (ry_threads s))%nat ->
  lookup ns (rs_map (ry_share s)) = Some k -> nth_error (rs_heap (ry_share s)) k = Some nc ->
  lookup id (po_map (pool_of sd nc)) = None ->
  limit sd s <= 0 \/ counter sd s < limit sd s ->
  po_max (pool_of sd nc) <= 0 \/ po_num (pool_of sd nc) < po_max (pool_of sd nc) ->
  exists s', ry_run [EvCall i (CCreate sd ns id tid); EvStep i quiet; EvStep i quiet] s = Some s' /\
    ry_log s' = ry_log s ++ [(length (ry_calls s), KDirect, OK)] /\ all_idle s' /\ counter sd s' = counter sd s + 1.
Proof.
  intros Hc Hl A Hi Hns Hk Hid Hq1 Hq2. pose proof (idle_nth s i A Hi) as Hi'.
  assert (Q2 : pool_quota (pool_of sd nc) = true).
  { unfold pool_quota. apply negb_true_iff, andb_false_iff. destruct Hq2; [right; lia|left; lia]. }
  assert (Q1 : quota sd (ry_share s) nc = true).
  { unfold quota. apply andb_true_iff. split; [|exact Q2]. apply negb_true_iff, andb_false_iff. unfold counter, limit in Hq1.
    destruct Hq1; [right; lia|left; lia]. }
  cbn [ry_run]. unfold ry_step at 1. rewrite Hc, Hi'. cbn [begin fst snd].
  unfold ry_step at 1. cbn [ry_share ry_threads ry_calls ry_log]. rewrite Hc, (nth_set_same _ _ _ _ Hi').
  cbn [op_step]. rewrite Hns, Hk, Q1, Hl. rewrite set_set.
  unfold ry_step. cbn [ry_share ry_threads ry_calls ry_log]. change (rs_crash (add_num sd 1 (ry_share s))) with (rs_crash (ry_share s)).
  rewrite Hc, (nth_set_same _ _ _ _ Hi'). cbn [op_step]. change (rs_heap (add_num sd 1 (ry_share s))) with (rs_heap (ry_share s)).
  rewrite Hk, Hid, Q2. cbn [resume]. eexists. split; [reflexivity|]. cbn [ry_log ry_threads ry_share]. rewrite set_set, set_idle by exact A.
  split; [reflexivity|]. split; [exact A|]. unfold counter. cbn [ry_share]. rewrite set_pool_glob.
  change (rs_glob (set_objs (add_num sd 1 (ry_share s)) _)) with (rs_glob (add_num sd 1 (ry_share s))).
  pose proof (g_add_num sd sd 1 (ry_share s)) as G. unfold g in G. destruct sd; lia.
Qed.

Lemma filter_one (id : Z) (o : nat) m : NoDup (map fst m) -> In (id, o) m -> zlen (filter (fun e => id =? fst e) m) = 1.
Proof.
  induction m as [|(x, v) m IH]; cbn [In map fst filter]; [tauto|]. intros N Hin. inversion N; subst.
  destruct (Z.eqb_spec id x) as [->|Hne].
  - assert (E : filter (fun e : Z * nat => x =? fst e) m = []).
    { clear - H1. induction m as [|(y, w) m IH]; [reflexivity|]. cbn in *. destruct (Z.eqb_spec x y) as [->|]; [tauto|]. apply IH. tauto. }
    rewrite E. reflexivity.
  - destruct Hin as [E|Hin]; [injection E as -> ->; tauto|]. apply IH; assumption.
Qed.
Lemma release_alone s i sd ns id k nc o :
  SysInv s -> rs_crash (ry_share s) = false -> rs_locked (ry_share s) = false -> all_idle s -> (i < length (ry_threads s))%nat ->
  lookup ns (rs_map (ry_share s)) = Some k -> nth_error (rs_heap (ry_share s)) k = Some nc ->
  In (id, o) (po_map (pool_of sd nc)) ->
  exists s' nc', ry_run [EvCall i (CRelease sd ns (One id)); EvStep i quiet; EvStep i quiet; EvStep i quiet] s = Some s' /\
    ry_log s' = ry_log s ++ [(length (ry_calls s), KDirect, OK)] /\ all_idle s' /\ length (ry_threads s') = length (ry_threads s) /\
    counter sd s' = counter sd s - 1 /\ limit sd s' = limit sd s /\ rs_map (ry_share s') = rs_map (ry_share s) /\
    nth_error (rs_heap (ry_share s')) k = Some nc' /\ po_num (pool_of sd nc') = po_num (pool_of sd nc) - 1 /\
    po_max (pool_of sd nc') = po_max (pool_of sd nc) /\
    (forall x, lookup x (po_map (pool_of sd nc)) = None \/ x = id -> lookup x (po_map (pool_of sd nc')) = None) /\
    rs_crash (ry_share s') = false /\ rs_locked (ry_share s') = false.
Proof.
  intros Iv Hc Hl A Hi Hns Hk Hin. pose proof (idle_nth s i A Hi) as Hi'.
  destruct (so_pools _ (si_share _ Iv) sd nc (nth_error_In _ _ Hk)) as (P1 & P2).
  pose proof (filter_one id o _ P2 Hin) as F1.
  destruct (release (One id) [] (pool_of sd nc)) as (p, n) eqn:Er.
  assert (En : n = 1) by (unfold release in Er; injection Er as _ <-; exact F1). subst n.
  cbn [ry_run]. unfold ry_step at 1. rewrite Hc, Hi'. cbn [begin fst snd].
  unfold ry_step at 1. cbn [ry_share ry_threads ry_calls ry_log]. rewrite Hc, (nth_set_same _ _ _ _ Hi').
  cbn [op_step]. rewrite Hl, Hns. rewrite set_set.
  unfold ry_step at 1. cbn [ry_share ry_threads ry_calls ry_log].
  rewrite Hc, (nth_set_same _ _ _ _ Hi'). cbn [op_step]. rewrite Hk. cbn [rc_stale quiet]. rewrite Er.
  change (1 >? 0) with true. cbv iota. rewrite set_set.
  unfold ry_step. cbn [ry_share ry_threads ry_calls ry_log].
  assert (Cr : rs_crash (set_pool sd k (ry_share s) p) = false) by (unfold set_pool; rewrite Hk; exact Hc).
  rewrite Cr, (nth_set_same _ _ _ _ Hi'). cbn [op_step]. rewrite set_pool_locked, Hl. cbn [resume].
  eexists. exists (with_pool sd nc p). split; [reflexivity|]. cbn [ry_log ry_threads ry_share]. rewrite set_set, set_idle by exact A.
  split; [reflexivity|]. split; [exact A|]. split; [reflexivity|].
  assert (Hp : pool_of sd (with_pool sd nc p) = p) by (rewrite pool_with; destruct sd; reflexivity).
  split; [|split; [|split; [|split; [|split; [|split; [|split; [|split]]]]]]].
  - unfold counter. cbn [ry_share]. pose proof (g_add_num sd sd (-(1)) (set_pool sd k (ry_share s) p)) as G. unfold g in G.
    rewrite set_pool_glob in G. destruct sd; lia.
  - pose proof (gmax_add sd sd (-(1)) (set_pool sd k (ry_share s) p)) as G. unfold gmax in G. unfold limit. cbn [ry_share].
    rewrite G, set_pool_glob. reflexivity.
  - rewrite add_num_map, set_pool_map. reflexivity.
  - rewrite add_num_heap, (set_pool_heap _ _ _ _ _ Hk). exact (nth_set_same _ _ _ _ Hk).
  - rewrite Hp. unfold release in Er. injection Er as <- E1. cbn [po_num]. rewrite E1. reflexivity.
  - rewrite Hp. unfold release in Er. injection Er as <- _. reflexivity.
  - intros x Hx. rewrite Hp. unfold release in Er. injection Er as <- _. cbn [po_map]. clear - Hx.
    induction (po_map (pool_of sd nc)) as [|(y, v) m IH]; [reflexivity|]. cbn [filter fst lookup] in *.
    destruct (Z.eqb_spec id y) as [->|Hne]; cbn [negb].
    + apply IH. destruct Hx as [Hx|Hx]; [|right; exact Hx]. destruct (x =? y); [discriminate|left; exact Hx].
    + cbn [lookup]. destruct (Z.eqb_spec x y) as [->|Hxy].
      * destruct Hx as [Hx|Hx]; congruence.
      * apply IH. exact Hx.
  - exact Cr.
  - cbn. rewrite set_pool_locked. exact Hl.
Qed.
Lemma ry_run_app a b s : ry_run (a ++ b) s = match ry_run a s with Some s' => ry_run b s' | None => None end.
Proof. revert s. induction a as [|e a IH]; intros s; cbn; [reflexivity|]. destruct (ry_step s e); [apply IH|reflexivity]. Qed.

(** When nobody is in a call, a transfer less than the limits can be added. *)
Lemma available max nsmax n evs s i sd ns id tid k nc : ry_run evs (ry_init max nsmax n) = Some s ->
  Forall keeps (ry_calls s) -> all_idle s -> (i < length (ry_threads s))%nat ->
  lookup ns (rs_map (ry_share s)) = Some k -> nth_error (rs_heap (ry_share s)) k = Some nc ->
  lookup id (po_map (pool_of sd nc)) = None ->
  limit sd s <= 0 \/ registered sd s < limit sd s ->
  po_max (pool_of sd nc) <= 0 \/ live_in sd s k < po_max (pool_of sd nc) ->
  exists s', ry_run [EvCall i (CCreate sd ns id tid); EvStep i quiet; EvStep i quiet] s = Some s' /\
    ry_log s' = ry_log s ++ [(length (ry_calls s), KDirect, OK)].
Proof.
  intros H Hk A Hi Hns Hnc Hid Hq1 Hq2. pose proof (SysInv_run _ _ _ _ _ H) as Iv.
  destruct (so_pools _ (si_share _ Iv) sd nc (nth_error_In _ _ Hnc)) as (P1 & _).
  destruct (create_alone s i sd ns id tid k nc) as (s' & R1 & R2 & _); auto.
  - exact (no_crash _ _ _ _ _ H Hk).
  - exact (idle_unlocked _ _ _ _ _ H A).
  - pose proof (counter_eq _ _ _ _ _ sd H) as C. rewrite (stranded_none _ _ _ _ _ sd H Hk), (idle_flight sd s A) in C. lia.
  - unfold live_in in Hq2. rewrite Hnc in Hq2. lia.
  - exists s'. split; assumption.
Qed.
Lemma reusable max nsmax n evs s i j sd ns id o id' tid k nc : ry_run evs (ry_init max nsmax n) = Some s ->
  Forall keeps (ry_calls s) -> all_idle s -> (i < length (ry_threads s))%nat -> (j < length (ry_threads s))%nat ->
  lookup ns (rs_map (ry_share s)) = Some k -> nth_error (rs_heap (ry_share s)) k = Some nc ->
  In (id, o) (po_map (pool_of sd nc)) -> id' = id \/ lookup id' (po_map (pool_of sd nc)) = None ->
  counter sd s <= limit sd s -> po_num (pool_of sd nc) <= po_max (pool_of sd nc) ->
  exists s', ry_run ([EvCall i (CRelease sd ns (One id)); EvStep i quiet; EvStep i quiet; EvStep i quiet] ++
                     [EvCall j (CCreate sd ns id' tid); EvStep j quiet; EvStep j quiet]) s = Some s' /\
    exists c c', ry_log s' = ry_log s ++ [(c, KDirect, OK); (c', KDirect, OK)].
Proof.
  intros H Hk A Hi Hj Hns Hnc Hin Hid Hq1 Hq2. pose proof (SysInv_run _ _ _ _ _ H) as Iv.
  destruct (release_alone s i sd ns id k nc o Iv (no_crash _ _ _ _ _ H Hk) (idle_unlocked _ _ _ _ _ H A) A Hi Hns Hnc Hin)
    as (s1 & nc' & R1 & R2 & R3 & R4 & R5 & R6 & R7 & R8 & R9 & R10 & R11 & R12 & R13).
  destruct (create_alone s1 j sd ns id' tid k nc') as (s' & C1 & C2 & _); auto.
  - rewrite R4. exact Hj.
  - rewrite R7. exact Hns.
  - apply R11. tauto.
  - lia.
  - lia.
  - exists s'. split.
    + rewrite ry_run_app, R1. exact C1.
    + exists (length (ry_calls s)), (length (ry_calls s1)). rewrite C2, R2, <- app_assoc. reflexivity.
Qed.

(** A controller no longer registered, that nobody holds, is never changed again. *)
Definition off (k : nat) (s : rsys) : Prop :=
  (k < length (rs_heap (ry_share s)))%nat /\ ~ In k (map snd (rs_map (ry_share s))) /\
  forall t, In t (ry_threads s) -> th_ctl t <> Some k /\ match t with RBusy _ _ (OShutS _ r) | RBusy _ _ (OShutR _ r) => ~ In k r | _ => True end.
Lemma off_step s c used ch o s' r k : op_step s c used ch o = Some (s', r) ->
  (k < length (rs_heap s))%nat -> ~ In k (map snd (rs_map s)) -> op_ctl o <> Some k ->
  match o with OShutS _ r | OShutR _ r => ~ In k r | _ => True end ->
  (k < length (rs_heap s'))%nat /\ ~ In k (map snd (rs_map s')) /\ nth_error (rs_heap s') k = nth_error (rs_heap s) k /\
  match r with
  | Go o' => op_ctl o' <> Some k /\ match o' with OShutS _ r | OShutR _ r => ~ In k r | _ => True end
  | Done _ _ => True
  end.
Proof.
  intros H Hk Hr Hc Hs.
  assert (Hl : forall ns j, lookup ns (rs_map s) = Some j -> Some j <> Some k).
  { intros ns j E [= ->]. apply Hr. apply lookup_in in E. apply (in_map snd) in E. exact E. }
  assert (Sp : forall sd j p s0, rs_heap s0 = rs_heap s -> rs_map s0 = rs_map s -> j <> k ->
     (k < length (rs_heap (set_pool sd j s0 p)))%nat /\ ~ In k (map snd (rs_map (set_pool sd j s0 p))) /\
     nth_error (rs_heap (set_pool sd j s0 p)) k = nth_error (rs_heap s) k).
  { intros sd j p s0 E1 E2 Hne. rewrite set_pool_len, set_pool_map, E1, E2. split; [exact Hk|]. split; [exact Hr|].
    unfold set_pool. rewrite E1. destruct (nth_error (rs_heap s) j); cbn [set_heap rs_heap]; rewrite ?E1; [|reflexivity].
    apply nth_set_other. exact Hne. }
  assert (An : forall ns, (k < length (rs_heap (add_ns s ns)))%nat /\ ~ In k (map snd (rs_map (add_ns s ns))) /\
     nth_error (rs_heap (add_ns s ns)) k = nth_error (rs_heap s) k).
  { intros ns. rewrite add_ns_len. split; [lia|]. cbn [add_ns set_map set_heap rs_heap rs_map map snd]. split.
    - intros [E|E]; [lia|exact (Hr E)].
    - apply nth_error_app1. exact Hk. }
  destruct o; cbn [op_step op_ctl] in *.
  - destruct (lookup ns (rs_map s)) as [j|] eqn:El.
    + destruct (nth_error (rs_heap s) j) as [nc|]; [|discriminate]. destruct (quota sd s nc), (rs_locked s); try discriminate;
        injection H as <- <-; (split; [exact Hk|split; [exact Hr|split; [reflexivity|]]]); [|exact I].
      split; [exact (Hl _ _ El)|exact I].
    + destruct (rs_strict s).
      * destruct (rs_locked s); [discriminate|]. injection H as <- <-. split; [exact Hk|split; [exact Hr|split; [reflexivity|exact I]]].
      * destruct (nth_error (rs_heap (add_ns s ns)) _) as [nc|]; [|discriminate]. destruct (An ns) as (A1 & A2 & A3).
        destruct (quota sd (add_ns s ns) nc), (rs_locked s); try discriminate; injection H as <- <-;
          (split; [exact A1|split; [exact A2|split; [exact A3|]]]); [|exact I]. split; [cbn; intros [= E]; lia|exact I].
  - assert (Hne : k0 <> k) by congruence. skip_ns H k0. injection H as H.
    destruct (lookup id (po_map (pool_of sd nc))); [injection H as <- <-; split; [exact Hk|split; [exact Hr|split; [reflexivity|split; [exact Hc|exact I]]]]|].
    destruct (pool_quota (pool_of sd nc)); injection H as <- <-;
      [|split; [exact Hk|split; [exact Hr|split; [reflexivity|split; [exact Hc|exact I]]]]].
    destruct (Sp sd k0 {| po_num := po_num (pool_of sd nc) + 1; po_max := po_max (pool_of sd nc); po_map := (id, length (rs_objs s)) :: po_map (pool_of sd nc) |}
      (set_objs s (rs_objs s ++ [{| ob_side := sd; ob_tid := tid; ob_call := c |}])) eq_refl eq_refl Hne) as (A1 & A2 & A3). auto.
  - destruct (rs_locked s); [discriminate|]. injection H as <- <-. auto.
  - destruct (rs_locked s); [discriminate|]. injection H as <- <-. split; [exact Hk|split; [exact Hr|split; [reflexivity|]]].
    destruct (lookup ns (rs_map s)) as [j|] eqn:El; [split; [exact (Hl _ _ El)|exact I]|destruct w; exact I].
  - assert (Hne : k0 <> k) by congruence. skip_ns H k0. destruct (release w (rc_stale ch) (pool_of sd nc)) as (p, n). injection H as <- <-.
    destruct (Sp sd k0 p s eq_refl eq_refl Hne) as (A1 & A2 & A3). split; [exact A1|split; [exact A2|split; [exact A3|]]].
    destruct (n >? 0); [split; [exact Hc|exact I]|exact I].
  - destruct (rs_locked s); [discriminate|]. injection H as <- <-. auto.
  - destruct (rs_locked s); [discriminate|]. injection H as <- <-. split; [exact Hk|split; [exact Hr|split; [reflexivity|]]].
    destruct (lookup ns (rs_map s)) as [j|] eqn:El; [split; [exact (Hl _ _ El)|exact I]|exact I].
  - skip_ns H k0. injection H as <- <-. auto.
  - destruct (rs_locked s); [discriminate|]. injection H as <- <-. destruct (An ns) as (A1 & A2 & A3).
    destruct (lookup ns (rs_map s)); auto.
  - destruct (rs_locked s); [discriminate|]. injection H as H. destruct (lookup ns (rs_map s)) as [j|] eqn:El; injection H as <- <-; [|auto].
    split; [exact Hk|]. split; [|split; [reflexivity|split; [exact (Hl _ _ El)|exact I]]].
    intros E. apply Hr. cbn [set_map rs_map] in E. apply in_map_iff in E. destruct E as (e & E & Hin). apply filter_In in Hin.
    rewrite <- E. apply in_map. exact (proj1 Hin).
  - assert (Hne : k0 <> k) by congruence. skip_ns H k0. destruct (release All [] (pool_of Snd nc)) as (p, n). injection H as <- <-.
    destruct (Sp Snd k0 p s eq_refl eq_refl Hne) as (A1 & A2 & A3). auto.
  - assert (Hne : k0 <> k) by congruence. skip_ns H k0. destruct (release All [] (pool_of Rcv nc)) as (p, n). injection H as <- <-.
    destruct (Sp Rcv k0 p s eq_refl eq_refl Hne) as (A1 & A2 & A3). auto.
  - destruct (rs_locked s); [discriminate|]. injection H as <- <-. auto.
  - destruct (used k0); [discriminate|]. injection H as <- <-. auto.
  - destruct (rs_locked s); [discriminate|]. injection H as <- <-. auto.
  - destruct (rs_locked s); [discriminate|]. injection H as <- <-. split; [exact Hk|split; [exact Hr|split; [reflexivity|]]].
    destruct (lookup ns (rs_map s)) as [j|] eqn:El; [split; [exact (Hl _ _ El)|exact I]|exact I].
  - assert (Hne : k0 <> k) by congruence. skip_ns H k0. injection H as <- <-.
    destruct (Sp sd k0 {| po_num := po_num (pool_of sd nc); po_max := n; po_map := po_map (pool_of sd nc) |} s eq_refl eq_refl Hne) as (A1 & A2 & A3). auto.
  - injection H as <- <-. auto.
  - destruct (rs_locked s); [discriminate|]. injection H as <- <-. split; [exact Hk|split; [exact Hr|split; [reflexivity|]]].
    destruct (map snd (rs_map s)) as [|j rest]; cbn; [split; [discriminate|exact I]|]. split; [intros [= ->]; apply Hr; left; reflexivity|].
    intros E. apply Hr. right. exact E.
  - assert (Hne : k0 <> k) by congruence. skip_ns H k0. destruct (release All [] (pool_of Snd nc)) as (p, n). injection H as <- <-.
    destruct (Sp Snd k0 p s eq_refl eq_refl Hne) as (A1 & A2 & A3). auto.
  - assert (Hne : k0 <> k) by congruence. skip_ns H k0. destruct (release All [] (pool_of Rcv nc)) as (p, n). injection H as <- <-.
    destruct (Sp Rcv k0 p s eq_refl eq_refl Hne) as (A1 & A2 & A3).
    split; [exact A1|split; [exact A2|split; [exact A3|]]].
    destruct rest as [|j rest]; cbn; [split; [discriminate|exact I]|]. cbn in Hs. split; [intros [= ->]; tauto|tauto].
  - injection H as <- <-. split; [exact Hk|]. split; [intros []|auto].
  - injection H as <- <-. auto.
Qed.
Lemma off_forever k : forall evs s s', off k s -> ry_run evs s = Some s' ->
  off k s' /\ nth_error (rs_heap (ry_share s')) k = nth_error (rs_heap (ry_share s)) k.
Proof.
  intros evs. induction evs as [|e evs IH]; intros s s' Ho H; cbn in H.
  - injection H as <-. auto.
  - destruct (ry_step s e) as [s1|] eqn:E; [|discriminate].
    assert (G : off k s1 /\ nth_error (rs_heap (ry_share s1)) k = nth_error (rs_heap (ry_share s)) k).
    { destruct Ho as (O1 & O2 & O3). apply step_cases in E.
      destruct E as [(i & c & Hi & ->)|(i & ch & c & kt & o & sh & r & Hi & Hs & E)].
      - split; [|reflexivity]. split; [exact O1|]. split; [exact O2|]. cbn [ry_threads]. intros t Ht. apply in_set_nth in Ht.
        destruct Ht as [->|Ht]; [|auto]. destruct c; (split; [discriminate|exact I]).
      - destruct (O3 _ (nth_error_In _ _ Hi)) as (T1 & T2). cbn in T1.
        assert (T2' : match o with OShutS _ r | OShutR _ r => ~ In k r | _ => True end) by (destruct o; exact T2).
        destruct (off_step _ _ _ _ _ _ _ k Hs O1 O2 T1 T2') as (F1 & F2 & F3 & F4).
        destruct E as [(o' & -> & ->)|[(code & obj & k' & o' & -> & Er & ->)|(code & obj & code' & -> & Er & ->)]];
          (split; [|exact F3]); (split; [exact F1|]); (split; [exact F2|]); cbn [set_th ry_threads]; intros t Ht;
          apply in_set_nth in Ht; (destruct Ht as [->|Ht]; [|auto]).
        + destruct F4 as (F4 & F5). split; [exact F4|]. destruct o'; exact F5.
        + destruct (resume_op _ _ _ _ _ _ Er) as [->|[(sd & ns & id & ->)|(sd & ns & id & tid & ->)]]; (split; [discriminate|exact I]).
        + split; [discriminate|exact I]. }
    destruct G as (G1 & G2). destruct (IH s1 s' G1 H) as (G3 & G4). split; [exact G3|congruence].
Qed.
