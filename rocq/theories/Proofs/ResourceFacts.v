(** The counters of the resource controller. *)
From Coq Require Import Lia Bool.
From Verif Require Export Spec.ResourceSpec.
From Verif Require Import Proofs.SumFacts Proofs.QueueMonitorFacts Proofs.HistoryFacts.
Import ListNotations.
Open Scope Z_scope.

Lemma get_put {A} sd sd' (p : two A) x :
  get sd (put sd' p x) = match sd, sd' with Snd, Snd | Rcv, Rcv => x | _, _ => get sd p end.
Proof. destruct sd, sd', p; reflexivity. Qed.

(** A pool counts its map, in which no identifier is there twice. *)
Definition pool_ok (p : pool) : Prop := po_num p = zlen (po_map p) /\ NoDup (map fst (po_map p)).
Lemma NoDup_filter_fst (f : Z * nat -> bool) m : NoDup (map fst m) -> NoDup (map fst (filter f m)).
Proof.
  induction m as [|e m IH]; cbn; [intros; constructor|]. intros H. inversion H; subst.
  destruct (f e); cbn; [|auto]. constructor; [|auto]. intros Hin. apply in_map_iff in Hin.
  destruct Hin as (e' & E & Hin). apply filter_In in Hin. destruct Hin as (Hin & _). apply H2. rewrite <- E.
  apply in_map. exact Hin.
Qed.
Lemma filter_split {A} (f : A -> bool) l : zlen (filter (fun e => negb (f e)) l) + zlen (filter f l) = zlen l.
Proof. unfold zlen. induction l as [|a l IH]; cbn; [reflexivity|]. destruct (f a); cbn [negb length]; lia. Qed.
Lemma release_ok w st p p' n : release w st p = (p', n) -> pool_ok p ->
  pool_ok p' /\ zlen (po_map p') + n = zlen (po_map p) /\ 0 <= n /\ po_max p' = po_max p.
Proof.
  unfold release. intros H (H1 & H2). injection H as <- <-. cbn [po_num po_max po_map].
  set (kill := fun e : Z * nat => _).
  pose proof (filter_split kill (po_map p)) as F. unfold pool_ok. cbn [po_num po_map].
  split; [split|split; [exact F|split; [unfold zlen; lia|reflexivity]]].
  - change (match w with All => 0 | _ => po_num p - zlen (filter kill (po_map p)) end =
      zlen (filter (fun e => negb (kill e)) (po_map p))).
    destruct w; [lia| |lia]. subst kill. clear. induction (po_map p) as [|e m IH]; [reflexivity|]. exact IH.
  - apply NoDup_filter_fst. exact H2.
Qed.
Lemma lookup_none x m : lookup x m = None -> ~ In x (map fst m).
Proof.
  induction m as [|(y, v) m IH]; cbn; [tauto|]. destruct (Z.eqb_spec x y); [discriminate|]. intros H [E|E]; [congruence|].
  exact (IH H E).
Qed.
Lemma lookup_in x m v : lookup x m = Some v -> In (x, v) m.
Proof.
  induction m as [|(y, w) m IH]; cbn; [discriminate|]. destruct (Z.eqb_spec x y) as [->|].
  - intros [= ->]. left. reflexivity.
  - intros H. right. apply IH, H.
Qed.
Lemma in_lookup x m v : NoDup (map fst m) -> In (x, v) m -> lookup x m = Some v.
Proof.
  induction m as [|(y, w) m IH]; cbn; [tauto|]. intros H [E|E].
  - injection E as -> ->. rewrite Z.eqb_refl. reflexivity.
  - inversion H; subst. destruct (Z.eqb_spec x y) as [->|]; [|auto]. exfalso. apply H2.
    change y with (fst (y, v)). apply in_map. exact E.
Qed.

(** Sums over the controllers as sums over the heap. *)
Definition heap_live (sd : side) (h : list nsctl) : Z := zsum (fun nc => zlen (po_map (pool_of sd nc))) h.
Lemma zsum_seq {A} (f : A -> Z) l : forall b,
  zsum (fun k => match nth_error l (k - b) with Some a => f a | None => 0 end) (seq b (length l)) = zsum f l.
Proof.
  induction l as [|a l IH]; intros b; cbn [length seq zsum]; [reflexivity|].
  rewrite Nat.sub_diag. cbn [nth_error]. f_equal. rewrite <- (IH (S b)). apply zsum_ext. intros k Hk.
  apply in_seq in Hk. replace (k - b)%nat with (S (k - S b)) by lia. reflexivity.
Qed.
Lemma live_heap sd s : live sd s = heap_live sd (rs_heap (ry_share s)).
Proof.
  unfold live, controllers, heap_live. rewrite <- (zsum_seq _ (rs_heap (ry_share s)) 0). apply zsum_ext.
  intros k _. unfold live_in. rewrite Nat.sub_0_r. reflexivity.
Qed.
Lemma live_split sd s : live sd s = registered sd s + stranded sd s.
Proof.
  unfold live, registered, stranded. rewrite <- zsum_add. apply zsum_ext. intros k _. destruct (is_registered s k); lia.
Qed.

(** The shared state: pools in order, the map points into the heap, by name. *)
Record share_ok (s : rshare) : Prop := {
  so_pools : forall sd nc, In nc (rs_heap s) -> pool_ok (pool_of sd nc);
  so_map : forall ns k, In (ns, k) (rs_map s) -> exists nc, nth_error (rs_heap s) k = Some nc /\ nc_name nc = ns;
  so_names : NoDup (map fst (rs_map s));
}.
Definition op_ok (s : rshare) (o : rop) : Prop :=
  (forall k, op_ctl o = Some k -> (k < length (rs_heap s))%nat) /\
  (forall k, In k (match o with OShutS k r | OShutR k r => r | _ => [] end) -> (k < length (rs_heap s))%nat) /\
  match o with ORelease3 _ _ _ n | ODereg3 _ n => 0 <= n | ODereg4 _ a b => 0 <= a /\ 0 <= b | _ => True end.
Definition res_flight (sd : side) (r : rres) : Z := match r with Go o => op_flight sd o | Done _ _ => 0 end.
Definition res_ok (s : rshare) (r : rres) : Prop := match r with Go o => op_ok s o | Done _ _ => True end.
Definition g (sd : side) (s : rshare) : Z := g_num (get sd (rs_glob s)).
Definition owed (sd : side) (s : rshare) : Z := g sd s - heap_live sd (rs_heap s).

Lemma add_num_heap sd n s : rs_heap (add_num sd n s) = rs_heap s. Proof. reflexivity. Qed.
Lemma add_num_map sd n s : rs_map (add_num sd n s) = rs_map s. Proof. reflexivity. Qed.
Lemma g_add_num sd sd' n s : g sd (add_num sd' n s) = g sd s + match sd, sd' with Snd, Snd | Rcv, Rcv => n | _, _ => 0 end.
Proof. unfold g, add_num. cbn [rs_glob set_glob]. rewrite get_put. destruct sd, sd'; cbn; lia. Qed.
Lemma owed_add_num sd sd' n s : owed sd (add_num sd' n s) = owed sd s + match sd, sd' with Snd, Snd | Rcv, Rcv => n | _, _ => 0 end.
Proof. unfold owed. rewrite g_add_num, add_num_heap. lia. Qed.
Lemma share_ok_same s s' : rs_heap s' = rs_heap s -> rs_map s' = rs_map s -> share_ok s -> share_ok s'.
Proof. intros E1 E2 [A B C]. constructor; rewrite ?E1, ?E2; assumption. Qed.
Lemma share_ok_add sd n s : share_ok s -> share_ok (add_num sd n s).
Proof. apply share_ok_same; reflexivity. Qed.

Lemma set_pool_heap sd k s p nc : nth_error (rs_heap s) k = Some nc ->
  rs_heap (set_pool sd k s p) = set_nth (rs_heap s) k (with_pool sd nc p).
Proof. intros H. unfold set_pool. rewrite H. reflexivity. Qed.
Lemma set_pool_map sd k s p : rs_map (set_pool sd k s p) = rs_map s.
Proof. unfold set_pool. destruct (nth_error (rs_heap s) k); reflexivity. Qed.
Lemma set_pool_glob sd k s p : rs_glob (set_pool sd k s p) = rs_glob s.
Proof. unfold set_pool. destruct (nth_error (rs_heap s) k); reflexivity. Qed.
Lemma set_pool_objs sd k s p : rs_objs (set_pool sd k s p) = rs_objs s.
Proof. unfold set_pool. destruct (nth_error (rs_heap s) k); reflexivity. Qed.
Lemma set_pool_locked sd k s p : rs_locked (set_pool sd k s p) = rs_locked s.
Proof. unfold set_pool. destruct (nth_error (rs_heap s) k); reflexivity. Qed.
Lemma pool_with sd sd' nc p :
  pool_of sd (with_pool sd' nc p) = match sd, sd' with Snd, Snd | Rcv, Rcv => p | _, _ => pool_of sd nc end.
Proof. unfold pool_of, with_pool. cbn [nc_pools]. apply get_put. Qed.
Lemma set_pool_ok sd k s p nc : nth_error (rs_heap s) k = Some nc -> share_ok s -> pool_ok p -> share_ok (set_pool sd k s p).
Proof.
  intros H [A B C] P. constructor.
  - rewrite (set_pool_heap _ _ _ _ _ H). intros sd' nc' Hin. apply in_set_nth in Hin. destruct Hin as [-> | Hin]; [|auto].
    rewrite pool_with. pose proof (A sd' nc (nth_error_In _ _ H)). destruct sd', sd; assumption.
  - rewrite set_pool_map. intros ns j Hj. destruct (B ns j Hj) as (nc' & E1 & E2).
    rewrite (set_pool_heap _ _ _ _ _ H). destruct (Nat.eqb_spec k j) as [->|Hne].
    + eexists. split; [eapply nth_set_same; eassumption|]. cbn. congruence.
    + exists nc'. split; [|exact E2]. rewrite nth_set_other; auto.
  - rewrite set_pool_map. exact C.
Qed.
Lemma owed_set_pool sd sd' k s p nc : nth_error (rs_heap s) k = Some nc ->
  owed sd (set_pool sd' k s p) =
  owed sd s + match sd, sd' with Snd, Snd | Rcv, Rcv => zlen (po_map (pool_of sd nc)) - zlen (po_map p) | _, _ => 0 end.
Proof.
  intros H. unfold owed, g. rewrite set_pool_glob, (set_pool_heap _ _ _ _ _ H). unfold heap_live.
  pose proof (zsum_set (fun nc => zlen (po_map (pool_of sd nc))) _ k nc (with_pool sd' nc p) H) as Z. cbn beta in Z.
  rewrite pool_with in Z. destruct sd, sd'; lia.
Qed.
Lemma set_pool_len sd k s p : length (rs_heap (set_pool sd k s p)) = length (rs_heap s).
Proof. unfold set_pool. destruct (nth_error (rs_heap s) k); [|reflexivity]. cbn. apply set_nth_length. Qed.

Lemma add_ns_ok s ns : lookup ns (rs_map s) = None -> share_ok s -> share_ok (add_ns s ns).
Proof.
  intros L [A B C]. constructor; cbn [add_ns set_map set_heap rs_heap rs_map].
  - intros sd nc Hin. apply in_app_or in Hin. destruct Hin as [Hin|[<-|[]]]; [auto|].
    destruct sd; (split; [reflexivity|constructor]).
  - intros ns' k [E|Hin].
    + injection E as <- <-. exists (new_ns s ns). split; [|reflexivity]. rewrite nth_error_app2 by lia.
      rewrite Nat.sub_diag. reflexivity.
    + destruct (B ns' k Hin) as (nc & E1 & E2). exists nc. split; [|exact E2]. rewrite nth_error_app1; [exact E1|].
      apply nth_error_Some. congruence.
  - cbn [map fst]. constructor; [apply lookup_none, L|exact C].
Qed.
Lemma add_ns_owed sd s ns : owed sd (add_ns s ns) = owed sd s.
Proof.
  unfold owed, g, add_ns, heap_live. cbn [set_map set_heap rs_heap rs_glob]. rewrite zsum_app. cbn [zsum].
  destruct sd; cbn; lia.
Qed.
Lemma add_ns_len s ns : length (rs_heap (add_ns s ns)) = S (length (rs_heap s)).
Proof. cbn. rewrite app_length. cbn. lia. Qed.

(** The heap only grows. *)
Lemma op_ok_mono s s' o : (length (rs_heap s) <= length (rs_heap s'))%nat -> op_ok s o -> op_ok s' o.
Proof.
  intros L (A & B & C). split; [|split; [|exact C]].
  - intros k H. specialize (A k H). lia.
  - intros k H. specialize (B k H). lia.
Qed.
Ltac inv H := inversion H; subst; clear H.
Ltac kbound E := apply nth_error_Some; rewrite E; discriminate.

Lemma op_step_facts s c used ch o s' r : op_step s c used ch o = Some (s', r) -> share_ok s -> op_ok s o ->
  share_ok s' /\ res_ok s' r /\ (length (rs_heap s) <= length (rs_heap s'))%nat /\
  (forall sd, owed sd s' - res_flight sd r = owed sd s - op_flight sd o).
Proof.
  intros H S (O1 & O2 & O3). destruct o; cbn [op_step] in H.
  - (* OCreate *)
    assert (Main : forall s1 k, share_ok s1 -> (length (rs_heap s) <= length (rs_heap s1))%nat ->
              (forall sd, owed sd s1 = owed sd s) ->
              match nth_error (rs_heap s1) k with
              | Some nc => if quota sd s1 nc
                           then if rs_locked s then None else Some (add_num sd 1 s1, Go (OCreate2 sd k id tid))
                           else if rs_locked s then None else Some (s1, Done QUOTA_EXCEEDED None)
              | None => None end = Some (s', r) ->
              share_ok s' /\ res_ok s' r /\ (length (rs_heap s) <= length (rs_heap s'))%nat /\
              (forall sd', owed sd' s' - res_flight sd' r = owed sd' s - op_flight sd' (OCreate sd ns id tid))).
    { intros s1 k S1 L1 Ow1 E. destruct (nth_error (rs_heap s1) k) as [nc|] eqn:En; [|discriminate].
      destruct (quota sd s1 nc); destruct (rs_locked s); try discriminate; injection E as <- <-.
      - split; [apply share_ok_add, S1|]. split.
        + split; [|split; [intros ? []|exact I]]. intros j [= <-]. rewrite add_num_heap. kbound En.
        + split; [exact L1|]. intros sd'. rewrite owed_add_num, Ow1. cbn [res_flight op_flight]. destruct sd', sd; lia.
      - split; [exact S1|]. split; [exact I|]. split; [exact L1|]. intros sd'. rewrite Ow1. cbn. lia. }
    destruct (lookup ns (rs_map s)) as [k|] eqn:El.
    + apply (Main s k); auto.
    + destruct (rs_strict s) eqn:Es.
      * destruct (rs_locked s); [discriminate|]. injection H as <- <-.
        split; [exact S|]. split; [exact I|]. split; [lia|]. intros. cbn. lia.
      * apply (Main (add_ns s ns) (length (rs_heap s))); auto.
        -- apply add_ns_ok; assumption.
        -- rewrite add_ns_len. lia.
        -- intros. apply add_ns_owed.
  - (* OCreate2 *)
    destruct (nth_error (rs_heap s) k) as [nc|] eqn:En; [|discriminate]. injection H as H.
    assert (Fail : forall code o, s' = s -> r = Go (OCreate3 sd k code o) ->
       share_ok s' /\ res_ok s' r /\ (length (rs_heap s) <= length (rs_heap s'))%nat /\
       (forall sd', owed sd' s' - res_flight sd' r = owed sd' s - op_flight sd' (OCreate2 sd k id tid))).
    { intros code o -> ->. split; [exact S|]. split; [|split; [lia|intros; cbn; destruct sd', sd; lia]].
      split; [|split; [intros ? []|exact I]]. intros j [= <-]. kbound En. }
    destruct (lookup id (po_map (pool_of sd nc))) as [o|] eqn:El.
    + injection H as <- <-. eapply Fail; reflexivity.
    + destruct (pool_quota (pool_of sd nc)) eqn:Eq; [|injection H as <- <-; eapply Fail; reflexivity].
      injection H as <- <-. set (s1 := set_objs s _). set (p := {| po_num := _; po_max := _; po_map := _ |}).
      assert (En1 : nth_error (rs_heap s1) k = Some nc) by exact En.
      pose proof (so_pools _ S sd nc (nth_error_In _ _ En)) as (P1 & P2).
      assert (S1 : share_ok s1) by (apply (share_ok_same s); [reflexivity|reflexivity|exact S]).
      split; [|split; [exact I|split]].
      * apply (set_pool_ok sd k s1 p nc En1 S1). subst p. split; cbn [po_num po_map map fst].
        -- rewrite P1. unfold zlen. cbn [length]. lia.
        -- constructor; [apply lookup_none, El|exact P2].
      * rewrite set_pool_len. cbn. lia.
      * intros sd'. rewrite (owed_set_pool sd' sd k s1 p nc En1). subst p. cbn [po_map res_flight op_flight].
        change (owed sd' s1) with (owed sd' s). unfold zlen. cbn [length]. destruct sd', sd; lia.
  - (* OCreate3 *)
    destruct (rs_locked s); [discriminate|]. injection H as <- <-.
    split; [apply share_ok_add, S|]. split; [exact I|]. split; [cbn; lia|].
    intros sd'. rewrite owed_add_num. cbn. destruct sd', sd; lia.
  - (* ORelease *)
    destruct (rs_locked s); [discriminate|]. injection H as <- <-.
    split; [exact S|]. destruct (lookup ns (rs_map s)) as [k|] eqn:El.
    + split; [|split; [lia|intros; cbn; lia]]. split; [|split; [intros ? []|exact I]]. intros j [= <-].
      destruct (so_map _ S ns k (lookup_in _ _ _ El)) as (nc & E & _). kbound E.
    + split; [destruct w; exact I|split; [lia|intros; destruct w; cbn; lia]].
  - (* ORelease2 *)
    destruct (nth_error (rs_heap s) k) as [nc|] eqn:En; [|discriminate].
    destruct (release w (rc_stale ch) (pool_of sd nc)) as (p, n) eqn:Er. injection H as <- <-.
    pose proof (so_pools _ S sd nc (nth_error_In _ _ En)) as P.
    destruct (release_ok _ _ _ _ _ Er P) as (R1 & R2 & R3 & _).
    split; [apply (set_pool_ok sd k s p nc En S R1)|].
    split; [|split].
    + destruct (n >? 0); [|destruct w; exact I]. split; [|split; [intros ? []|exact R3]]. intros j [= <-].
      rewrite set_pool_len. kbound En.
    + rewrite set_pool_len. lia.
    + intros sd'. rewrite (owed_set_pool sd' sd k s p nc En).
      destruct (n >? 0) eqn:Ez; [cbn [res_flight op_flight]; destruct sd', sd; lia|].
      assert (n = 0) by (rewrite Z.gtb_ltb in Ez; apply Z.ltb_ge in Ez; lia).
      destruct sd', sd; destruct w; cbn [res_flight op_flight]; lia.
  - (* ORelease3 *)
    destruct (rs_locked s); [discriminate|]. injection H as <- <-.
    split; [apply share_ok_add, S|]. split; [exact I|]. split; [cbn; lia|].
    intros sd'. rewrite owed_add_num. cbn. destruct sd', sd; lia.
  - (* OGet *)
    destruct (rs_locked s); [discriminate|]. injection H as <- <-.
    split; [exact S|]. destruct (lookup ns (rs_map s)) as [k|] eqn:El.
    + split; [|split; [lia|intros; cbn; lia]]. split; [|split; [intros ? []|exact I]]. intros j [= <-].
      destruct (so_map _ S ns k (lookup_in _ _ _ El)) as (nc & E & _). kbound E.
    + split; [exact I|split; [lia|intros; cbn; lia]].
  - (* OGet2 *)
    destruct (nth_error (rs_heap s) k) as [nc|] eqn:En; [|discriminate]. injection H as <- <-.
    split; [exact S|]. split; [exact I|split; [lia|intros; cbn; lia]].
  - (* OReg *)
    destruct (rs_locked s); [discriminate|]. injection H as <- <-.
    destruct (lookup ns (rs_map s)) as [k|] eqn:El.
    + split; [exact S|]. split; [exact I|split; [lia|intros; cbn; lia]].
    + split; [apply add_ns_ok; assumption|]. split; [exact I|split].
      * rewrite add_ns_len. lia.
      * intros. rewrite add_ns_owed. cbn. lia.
  - (* ODereg *)
    destruct (rs_locked s); [discriminate|]. injection H as H.
    destruct (lookup ns (rs_map s)) as [k|] eqn:El; injection H as <- <-.
    + split; [|split; [|split; [cbn; lia|intros sd0; cbn [res_flight op_flight]; change (owed sd0 s - 0 = owed sd0 s - 0); reflexivity]]].
      * destruct S as [A B C]. constructor; cbn [rs_heap rs_map set_map].
        -- exact A.
        -- intros ns' j Hj. apply filter_In in Hj. apply B. exact (proj1 Hj).
        -- apply NoDup_filter_fst, C.
      * split; [|split; [intros ? []|exact I]]. intros j [= <-].
        destruct (so_map _ S ns k (lookup_in _ _ _ El)) as (nc & E & _). cbn [rs_heap set_map]. kbound E.
    + split; [exact S|]. split; [exact I|split; [lia|intros; cbn; lia]].
  - (* ODereg2 *)
    destruct (nth_error (rs_heap s) k) as [nc|] eqn:En; [|discriminate].
    destruct (release All [] (pool_of Snd nc)) as (p, n) eqn:Er. injection H as <- <-.
    pose proof (so_pools _ S Snd nc (nth_error_In _ _ En)) as P.
    destruct (release_ok _ _ _ _ _ Er P) as (R1 & R2 & R3 & _).
    split; [apply (set_pool_ok _ k s p nc En S R1)|].
    split; [|split].
    + split; [|split; [intros ? []|exact R3]]. intros j [= <-]. rewrite set_pool_len. kbound En.
    + rewrite set_pool_len. lia.
    + intros sd'. rewrite (owed_set_pool sd' Snd k s p nc En). cbn [res_flight op_flight]. destruct sd'; lia.
  - (* ODereg3 *)
    destruct (nth_error (rs_heap s) k) as [nc|] eqn:En; [|discriminate].
    destruct (release All [] (pool_of Rcv nc)) as (p, n) eqn:Er. injection H as <- <-.
    pose proof (so_pools _ S Rcv nc (nth_error_In _ _ En)) as P.
    destruct (release_ok _ _ _ _ _ Er P) as (R1 & R2 & R3 & _).
    split; [apply (set_pool_ok _ k s p nc En S R1)|].
    split; [|split].
    + split; [|split; [intros ? []|exact (conj O3 R3)]]. intros j [= <-]. rewrite set_pool_len. kbound En.
    + rewrite set_pool_len. lia.
    + intros sd'. rewrite (owed_set_pool sd' Rcv k s p nc En). cbn [res_flight op_flight]. destruct sd'; lia.
  - (* ODereg4 *)
    destruct (rs_locked s); [discriminate|]. injection H as <- <-.
    split; [apply share_ok_add, share_ok_add, S|]. split; [|split; [cbn; lia|]].
    + split; [|split; [intros ? []|exact I]]. intros j [= <-]. rewrite !add_num_heap. apply O1. reflexivity.
    + intros sd'. rewrite !owed_add_num. cbn. destruct sd'; lia.
  - (* ODereg5 *)
    destruct (used k); [discriminate|]. injection H as <- <-.
    split; [exact S|]. split; [exact I|split; [lia|intros; cbn; lia]].
  - (* OLimit *)
    destruct (rs_locked s); [discriminate|]. injection H as <- <-.
    split; [apply (share_ok_same s); [reflexivity|reflexivity|exact S]|]. split; [exact I|split; [cbn; lia|]].
    intros sd'. unfold owed, g. cbn [rs_glob set_glob rs_heap]. rewrite get_put. destruct sd', sd; cbn; lia.
  - (* ONsLimit *)
    destruct (rs_locked s); [discriminate|]. injection H as <- <-.
    split; [exact S|]. destruct (lookup ns (rs_map s)) as [k|] eqn:El.
    + split; [|split; [lia|intros; cbn; lia]]. split; [|split; [intros ? []|exact I]]. intros j [= <-].
      destruct (so_map _ S ns k (lookup_in _ _ _ El)) as (nc & E & _). kbound E.
    + split; [exact I|split; [lia|intros; cbn; lia]].
  - (* ONsLimit2 *)
    destruct (nth_error (rs_heap s) k) as [nc|] eqn:En; [|discriminate]. injection H as <- <-.
    pose proof (so_pools _ S sd nc (nth_error_In _ _ En)) as P.
    split; [apply (set_pool_ok _ k s _ nc En S); exact P|]. split; [exact I|]. split; [rewrite set_pool_len; lia|].
    intros sd'. rewrite (owed_set_pool sd' sd k s _ nc En). cbn [po_map res_flight op_flight]. destruct sd', sd; lia.
  - (* OStrict *)
    injection H as <- <-. split; [apply (share_ok_same s); [reflexivity|reflexivity|exact S]|]. split; [exact I|split; [cbn; lia|]].
    intros sd'. reflexivity.
  - (* OShut *)
    destruct (rs_locked s); [discriminate|]. injection H as <- <-.
    split; [apply (share_ok_same s); [reflexivity|reflexivity|exact S]|].
    assert (Hb : forall k, In k (map snd (rs_map s)) -> (k < length (rs_heap s))%nat).
    { intros k Hk. apply in_map_iff in Hk. destruct Hk as ((ns, k') & E & Hk). cbn in E. subst k'.
      destruct (so_map _ S ns k Hk) as (nc & En & _). kbound En. }
    split; [|split; [cbn; lia|]].
    + destruct (map snd (rs_map s)) as [|k r] eqn:Em; cbn [shut_next res_ok].
      * split; [intros ? [=]|split; [intros ? []|exact I]].
      * split; [intros ? [= <-]; apply Hb; left; reflexivity|split; [|exact I]]. intros j Hj. apply Hb. right. exact Hj.
    + intros sd'. destruct (map snd (rs_map s)); reflexivity.
  - (* OShutS *)
    destruct (nth_error (rs_heap s) k) as [nc|] eqn:En; [|discriminate].
    destruct (release All [] (pool_of Snd nc)) as (p, n) eqn:Er. injection H as <- <-.
    pose proof (so_pools _ S Snd nc (nth_error_In _ _ En)) as P.
    destruct (release_ok _ _ _ _ _ Er P) as (R1 & R2 & R3 & _).
    split; [apply share_ok_add, (set_pool_ok _ k s p nc En S R1)|].
    split; [|split].
    + split; [|split; [|exact I]].
      * intros j [= <-]. rewrite add_num_heap, set_pool_len. kbound En.
      * intros j Hj. rewrite add_num_heap, set_pool_len. apply O2. exact Hj.
    + rewrite add_num_heap, set_pool_len. lia.
    + intros sd'. rewrite owed_add_num, (owed_set_pool sd' Snd k s p nc En). cbn [res_flight op_flight]. destruct sd'; lia.
  - (* OShutR *)
    destruct (nth_error (rs_heap s) k) as [nc|] eqn:En; [|discriminate].
    destruct (release All [] (pool_of Rcv nc)) as (p, n) eqn:Er. injection H as <- <-.
    pose proof (so_pools _ S Rcv nc (nth_error_In _ _ En)) as P.
    destruct (release_ok _ _ _ _ _ Er P) as (R1 & R2 & R3 & _).
    split; [apply share_ok_add, (set_pool_ok _ k s p nc En S R1)|].
    split; [|split].
    + cbn [res_ok]. destruct rest as [|j rest]; cbn [shut_next].
      * split; [intros ? [=]|split; [intros ? []|exact I]].
      * split; [intros ? [= <-]|split; [|exact I]].
        -- rewrite add_num_heap, set_pool_len. apply O2. left. reflexivity.
        -- intros i Hi. rewrite add_num_heap, set_pool_len. apply O2. right. exact Hi.
    + rewrite add_num_heap, set_pool_len. lia.
    + intros sd'. rewrite owed_add_num, (owed_set_pool sd' Rcv k s p nc En).
      assert (F : res_flight sd' (Go (shut_next rest)) = 0) by (destruct rest; reflexivity).
      rewrite F. cbn [op_flight]. destruct sd'; lia.
  - (* OShutEnd *)
    injection H as <- <-. split; [|split; [exact I|split; [cbn; lia|]]].
    + destruct S as [A B C]. constructor; cbn; [exact A|intros ? ? []|constructor].
    + intros sd'. reflexivity.
  - (* OUser *)
    injection H as <- <-. split; [exact S|]. split; [exact I|split; [lia|intros; cbn; lia]].
Qed.

(** The four kinds of steps. *)
Definition set_th (s : rsys) (sh : rshare) (i : nat) (t : rthread) : rsys :=
  {| ry_share := sh; ry_threads := set_nth (ry_threads s) i t; ry_calls := ry_calls s; ry_log := ry_log s |}.
Lemma step_cases s e s' : ry_step s e = Some s' ->
  (exists i c, nth_error (ry_threads s) i = Some RIdle /\
     s' = {| ry_share := ry_share s;
             ry_threads := set_nth (ry_threads s) i (RBusy (length (ry_calls s)) (fst (begin c)) (snd (begin c)));
             ry_calls := ry_calls s ++ [c]; ry_log := ry_log s |}) \/
  (exists i ch c k o sh r, nth_error (ry_threads s) i = Some (RBusy c k o) /\
     op_step (ry_share s) c (others_hold s i) ch o = Some (sh, r) /\
     ((exists o', r = Go o' /\ s' = set_th s sh i (RBusy c k o')) \/
      (exists code obj k' o', r = Done code obj /\ resume (rs_objs sh) k code obj = inl (k', o') /\
         s' = set_th s sh i (RBusy c k' o')) \/
      (exists code obj code', r = Done code obj /\ resume (rs_objs sh) k code obj = inr code' /\
         s' = {| ry_share := sh; ry_threads := set_nth (ry_threads s) i RIdle; ry_calls := ry_calls s;
                 ry_log := ry_log s ++ [(c, k, code')] |}))).
Proof.
  unfold ry_step. destruct (rs_crash (ry_share s)); [discriminate|]. destruct e as [i c|i ch].
  - destruct (nth_error (ry_threads s) i) as [[|]|] eqn:E; try discriminate.
    destruct (begin c) as (k, o) eqn:Eb. intros [= <-]. left. exists i, c. rewrite Eb. split; [exact E|reflexivity].
  - destruct (nth_error (ry_threads s) i) as [[|c k o]|] eqn:E; try discriminate.
    destruct (op_step _ _ _ _ _) as [(sh, r)|] eqn:Eo; [|discriminate]. destruct r as [o'|code obj].
    + intros [= <-]. right. exists i, ch, c, k, o, sh, (Go o'). split; [exact E|]. split; [exact Eo|].
      left. exists o'. split; reflexivity.
    + destruct (resume (rs_objs sh) k code obj) as [(k', o')|code'] eqn:Er; intros [= <-]; right;
        exists i, ch, c, k, o, sh, (Done code obj); (split; [exact E|]); (split; [exact Eo|]); right.
      * left. exists code, obj, k', o'. split; [reflexivity|]. split; [exact Er|reflexivity].
      * right. exists code, obj, code'. split; [reflexivity|]. split; [exact Er|reflexivity].
Qed.
Lemma run_inv (P : rsys -> Prop) : (forall s e s', P s -> ry_step s e = Some s' -> P s') ->
  forall evs s s', P s -> ry_run evs s = Some s' -> P s'.
Proof.
  intros St evs. induction evs as [|e evs IH]; intros s s' Hp H; cbn in H.
  - injection H as <-. exact Hp.
  - destruct (ry_step s e) as [s1|] eqn:E; [|discriminate]. exact (IH _ _ (St _ _ _ Hp E) H).
Qed.

Definition th_op_ok (s : rshare) (t : rthread) : Prop := match t with RBusy _ _ o => op_ok s o | RIdle => True end.
Record SysInv (s : rsys) : Prop := {
  si_share : share_ok (ry_share s);
  si_ops : Forall (th_op_ok (ry_share s)) (ry_threads s);
  si_sum : forall sd, owed sd (ry_share s) = in_flight sd s
}.
Definition th_flight (sd : side) (t : rthread) : Z := match t with RBusy _ _ o => op_flight sd o | RIdle => 0 end.
Lemma begin_ok s c : op_ok s (snd (begin c)) /\ forall sd, op_flight sd (snd (begin c)) = 0.
Proof. destruct c; (split; [split; [intros ? [=]|split; [intros ? []|exact I]]|destruct sd; reflexivity]) || (split; [split; [intros ? [=]|split; [intros ? []|exact I]]|reflexivity]). Qed.
Lemma resume_op objs k code obj k' o' : resume objs k code obj = inl (k', o') ->
  o' = OUser \/ (exists sd ns id, o' = ORelease sd ns (One id)) \/ (exists sd ns id tid, o' = OCreate sd ns id tid).
Proof.
  destruct k; cbn [resume].
  all: repeat match goal with |- context [if ?b then _ else _] => destruct b
       | |- context [match ?b with true => _ | false => _ end] => destruct b
       | |- context [match ?b with Some _ => _ | None => _ end] => destruct b end.
  all: intros [=]; subst; eauto 10.
Qed.
Lemma resume_ok s objs k code obj k' o' : resume objs k code obj = inl (k', o') ->
  op_ok s o' /\ forall sd, op_flight sd o' = 0.
Proof.
  intros H. destruct (resume_op _ _ _ _ _ _ H) as [->|[(sd & ns & id & ->)|(sd & ns & id & tid & ->)]].
  all: split; [split; [intros ? [=]|split; [intros ? []|exact I]]|intros [|]; reflexivity].
Qed.
Lemma flight_set sd s sh i t t' : nth_error (ry_threads s) i = Some t -> forall calls log,
  in_flight sd {| ry_share := sh; ry_threads := set_nth (ry_threads s) i t'; ry_calls := calls; ry_log := log |} =
  in_flight sd s - th_flight sd t + th_flight sd t'.
Proof.
  intros H calls log. unfold in_flight. cbn [ry_threads].
  pose proof (zsum_set (th_flight sd) _ i t t' H) as Z. change (zsum (th_flight sd) (set_nth (ry_threads s) i t') = zsum (th_flight sd) (ry_threads s) - th_flight sd t + th_flight sd t'). lia.
Qed.
Lemma SysInv_step s e s' : SysInv s -> ry_step s e = Some s' -> SysInv s'.
Proof.
  intros [A B C] H. apply step_cases in H. destruct H as [(i & c & Hi & ->)|(i & ch & c & k & o & sh & r & Hi & Ho & H)].
  - destruct (begin_ok (ry_share s) c) as (B1 & B2). constructor; cbn [ry_share ry_threads].
    + exact A.
    + apply Forall_set; [exact B|exact B1].
    + intros sd. rewrite (flight_set _ _ _ _ _ _ Hi). cbn [th_flight]. rewrite B2, C. lia.
  - assert (Hok : op_ok (ry_share s) o) by (exact (Forall_nth_error _ _ _ _ B Hi)).
    destruct (op_step_facts _ _ _ _ _ _ _ Ho A Hok) as (F1 & F2 & F3 & F4).
    assert (B' : Forall (th_op_ok sh) (ry_threads s)).
    { eapply Forall_impl; [|exact B]. intros [|c1 k1 o1]; cbn; [tauto|]. apply op_ok_mono, F3. }
    destruct H as [(o' & -> & ->)|[(code & obj & k' & o' & -> & Er & ->)|(code & obj & code' & -> & Er & ->)]].
    + constructor; cbn [set_th ry_share ry_threads].
      * exact F1.
      * apply Forall_set; [exact B'|exact F2].
      * intros sd. unfold set_th. rewrite (flight_set _ _ _ _ _ _ Hi). specialize (F4 sd). cbn [th_flight res_flight] in *.
        specialize (C sd). lia.
    + destruct (resume_ok sh _ _ _ _ _ _ Er) as (R1 & R2). constructor; cbn [set_th ry_share ry_threads].
      * exact F1.
      * apply Forall_set; [exact B'|exact R1].
      * intros sd. unfold set_th. rewrite (flight_set _ _ _ _ _ _ Hi). specialize (F4 sd). cbn [th_flight res_flight] in *.
        rewrite R2. specialize (C sd). lia.
    + constructor; cbn [ry_share ry_threads].
      * exact F1.
      * apply Forall_set; [exact B'|exact I].
      * intros sd. rewrite (flight_set _ _ _ _ _ _ Hi). specialize (F4 sd). cbn [th_flight res_flight] in *.
        specialize (C sd). lia.
Qed.
Lemma SysInv_init max nsmax n : SysInv (ry_init max nsmax n).
Proof.
  constructor; cbn [ry_init ry_share ry_threads].
  - constructor; cbn; [intros ? ? []|intros ? ? []|constructor].
  - apply Forall_forall. intros t Ht. apply repeat_spec in Ht. subst t. exact I.
  - intros sd. unfold in_flight. cbn [ry_threads ry_init]. rewrite zsum_repeat. destruct sd; cbn; lia.
Qed.
Lemma SysInv_run max nsmax n evs s : ry_run evs (ry_init max nsmax n) = Some s -> SysInv s.
Proof. apply (run_inv SysInv SysInv_step). apply SysInv_init. Qed.

Lemma counter_eq max nsmax n evs s sd : ry_run evs (ry_init max nsmax n) = Some s ->
  counter sd s = registered sd s + stranded sd s + in_flight sd s.
Proof.
  intros H. pose proof (si_sum _ (SysInv_run _ _ _ _ _ H) sd) as S. unfold owed in S.
  rewrite <- live_split, live_heap. unfold counter. unfold g in S. lia.
Qed.
Lemma flight_nonneg s sd : SysInv s -> 0 <= in_flight sd s.
Proof.
  intros [_ B _]. apply zsum_nonneg. intros t Ht. rewrite Forall_forall in B. specialize (B t Ht).
  destruct t as [|c k o]; [lia|]. destruct B as (_ & _ & B). destruct o; cbn [op_flight]; try lia.
  all: destruct sd; try destruct sd0; try lia.
Qed.

(** While no namespace is taken away, all are registered. *)
Definition op_keeps (o : rop) : Prop :=
  match o with ODereg _ | OShut | OShutEnd | OShutS _ _ | OShutR _ _ => False | _ => True end.
Definition th_keeps (t : rthread) : Prop := match t with RBusy _ _ o => op_keeps o | RIdle => True end.
Definition all_reg (s : rshare) : Prop := forall k, (k < length (rs_heap s))%nat -> In k (map snd (rs_map s)).
Lemma add_ns_reg s ns : all_reg s -> all_reg (add_ns s ns).
Proof.
  intros H k Hk. rewrite add_ns_len in Hk. cbn [add_ns set_map rs_map map snd].
  destruct (Nat.eqb_spec k (length (rs_heap s))) as [->|]; [left; reflexivity|]. right. apply H. lia.
Qed.
Lemma all_reg_same s s' : rs_map s' = rs_map s -> length (rs_heap s') = length (rs_heap s) -> all_reg s -> all_reg s'.
Proof. intros E1 E2 H k Hk. rewrite E1. apply H. lia. Qed.
Lemma op_keeps_step s c used ch o s' r : op_step s c used ch o = Some (s', r) -> op_keeps o -> all_reg s ->
  all_reg s' /\ match r with Go o' => op_keeps o' | Done _ _ => True end.
Proof.
  intros H K R. destruct o; cbn [op_step op_keeps] in *; try tauto.
  - destruct (lookup ns (rs_map s)) as [k|].
    + destruct (nth_error (rs_heap s) k) as [nc|]; [|discriminate]. destruct (quota sd s nc), (rs_locked s); try discriminate;
        injection H as <- <-; (split; [apply (all_reg_same s); auto|exact I]).
    + destruct (rs_strict s).
      * destruct (rs_locked s); [discriminate|]. injection H as <- <-. split; [exact R|exact I].
      * destruct (nth_error (rs_heap (add_ns s ns)) _) as [nc|]; [|discriminate].
        destruct (quota sd (add_ns s ns) nc), (rs_locked s); try discriminate; injection H as <- <-;
          (split; [apply (all_reg_same (add_ns s ns)); auto; apply add_ns_reg, R|exact I]).
  - destruct (nth_error (rs_heap s) k) as [nc|]; [|discriminate]. injection H as H.
    destruct (lookup id (po_map (pool_of sd nc))); [injection H as <- <-; split; [exact R|exact I]|].
    destruct (pool_quota (pool_of sd nc)); injection H as <- <-; (split; [|exact I]); [|exact R].
    apply (all_reg_same s); auto; [rewrite set_pool_map; reflexivity|rewrite set_pool_len; reflexivity].
  - destruct (rs_locked s); [discriminate|]. injection H as <- <-. split; [apply (all_reg_same s); auto|exact I].
  - destruct (rs_locked s); [discriminate|]. injection H as <- <-. split; [exact R|]. destruct (lookup ns (rs_map s)); [exact I|destruct w; exact I].
  - destruct (nth_error (rs_heap s) k) as [nc|]; [|discriminate].
    destruct (release w (rc_stale ch) (pool_of sd nc)) as (p, n). injection H as <- <-. split.
    + apply (all_reg_same s); auto; [rewrite set_pool_map; reflexivity|rewrite set_pool_len; reflexivity].
    + destruct (n >? 0); [exact I|destruct w; exact I].
  - destruct (rs_locked s); [discriminate|]. injection H as <- <-. split; [apply (all_reg_same s); auto|exact I].
  - destruct (rs_locked s); [discriminate|]. injection H as <- <-. split; [exact R|]. destruct (lookup ns (rs_map s)); exact I.
  - destruct (nth_error (rs_heap s) k) as [nc|]; [|discriminate]. injection H as <- <-. split; [exact R|exact I].
  - destruct (rs_locked s); [discriminate|]. injection H as <- <-. split; [|exact I].
    destruct (lookup ns (rs_map s)); [exact R|apply add_ns_reg, R].
  - destruct (nth_error (rs_heap s) k) as [nc|]; [|discriminate].
    destruct (release All [] (pool_of Snd nc)) as (p, n). injection H as <- <-. split; [|exact I].
    apply (all_reg_same s); auto; [rewrite set_pool_map; reflexivity|rewrite set_pool_len; reflexivity].
  - destruct (nth_error (rs_heap s) k) as [nc|]; [|discriminate].
    destruct (release All [] (pool_of Rcv nc)) as (p, n). injection H as <- <-. split; [|exact I].
    apply (all_reg_same s); auto; [rewrite set_pool_map; reflexivity|rewrite set_pool_len; reflexivity].
  - destruct (rs_locked s); [discriminate|]. injection H as <- <-. split; [apply (all_reg_same s); auto|exact I].
  - destruct (used k); [discriminate|]. injection H as <- <-. split; [exact R|exact I].
  - destruct (rs_locked s); [discriminate|]. injection H as <- <-. split; [apply (all_reg_same s); auto|exact I].
  - destruct (rs_locked s); [discriminate|]. injection H as <- <-. split; [exact R|]. destruct (lookup ns (rs_map s)); exact I.
  - destruct (nth_error (rs_heap s) k) as [nc|]; [|discriminate]. injection H as <- <-. split; [|exact I].
    apply (all_reg_same s); auto; [rewrite set_pool_map; reflexivity|rewrite set_pool_len; reflexivity].
  - injection H as <- <-. split; [apply (all_reg_same s); auto|exact I].
  - injection H as <- <-. split; [exact R|exact I].
Qed.
Definition Keeps (s : rsys) : Prop := Forall keeps (ry_calls s) -> all_reg (ry_share s) /\ Forall th_keeps (ry_threads s).
Lemma begin_keeps c : keeps c -> op_keeps (snd (begin c)).
Proof. destruct c; cbn; tauto. Qed.
Lemma resume_keeps objs k code obj k' o' : resume objs k code obj = inl (k', o') -> op_keeps o'.
Proof.
  intros H. destruct (resume_op _ _ _ _ _ _ H) as [->|[(sd & ns & id & ->)|(sd & ns & id & tid & ->)]]; exact I.
Qed.
Lemma Keeps_step s e s' : Keeps s -> ry_step s e = Some s' -> Keeps s'.
Proof.
  intros K H. apply step_cases in H. destruct H as [(i & c & Hi & ->)|(i & ch & c & k & o & sh & r & Hi & Ho & H)].
  - intros Hc. cbn [ry_calls] in Hc. apply Forall_app in Hc. destruct Hc as (Hc & Hc'). inversion Hc'; subst.
    destruct (K Hc) as (K1 & K2). split; [exact K1|]. cbn [ry_threads]. apply Forall_set; [exact K2|]. apply begin_keeps. assumption.
  - intros Hc.
    assert (Hc' : Forall keeps (ry_calls s)).
    { destruct H as [(o' & -> & ->)|[(code & obj & k' & o' & -> & Er & ->)|(code & obj & code' & -> & Er & ->)]]; exact Hc. }
    destruct (K Hc') as (K1 & K2). assert (Ko : op_keeps o) by exact (Forall_nth_error _ _ _ _ K2 Hi).
    destruct (op_keeps_step _ _ _ _ _ _ _ Ho Ko K1) as (S1 & S2).
    destruct H as [(o' & -> & ->)|[(code & obj & k' & o' & -> & Er & ->)|(code & obj & code' & -> & Er & ->)]];
      (split; [exact S1|]); cbn [set_th ry_threads]; apply Forall_set; auto.
exact (resume_keeps _ _ _ _ _ _ Er).
Qed.
Lemma stranded_none max nsmax n evs s sd : ry_run evs (ry_init max nsmax n) = Some s ->
  Forall keeps (ry_calls s) -> stranded sd s = 0.
Proof.
  intros H Hc.
  assert (K : Keeps s).
  { refine (run_inv Keeps Keeps_step evs _ s _ H). intros _. split.
    - intros k Hk. cbn in Hk. lia.
    - cbn. apply Forall_forall. intros t Ht. apply repeat_spec in Ht. subst t. exact I. }
  destruct (K Hc) as (R & _). unfold stranded. rewrite (zsum_ext _ (fun _ => 0)).
  - clear. induction (controllers s); cbn; lia.
  - intros k Hk. unfold controllers in Hk. apply in_seq in Hk.
    assert (E : is_registered s k = true).
    { apply existsb_exists. specialize (R k ltac:(lia)). apply in_map_iff in R. destruct R as (e & E & Hin).
      exists e. split; [exact Hin|]. rewrite E. apply Nat.eqb_refl. }
    rewrite E. reflexivity.
Qed.
