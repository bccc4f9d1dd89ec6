(** What connect does: descriptors, addresses and time. *)
From Coq Require Import Lia.
From Verif Require Import Model.Connect Spec.ConnectSpec.
From Verif Require Import Model.Uri Model.SocketLife.

(** ** Traces *)
Lemma replay_app h l m : replay h (l ++ m) = match replay h l with Some h' => replay h' m | None => None end.
Proof.
  revert h; induction l as [|e l IH]; intros h; [reflexivity|].
  cbn. destruct (step h e); [apply IH|reflexivity].
Qed.
(** What the socket holds, as a state of the replay. *)
Definition holds (s : cstate) (h : option (Z * bool)) : Prop :=
  replay None (cs_tr s) = Some h /\ match h with Some (f, _) => cs_fd s = f /\ 0 <= f | None => cs_fd s = -1 end.

Lemma holds_say s h e h' : holds s h -> step h e = Some h' ->
  replay None (cs_tr (c_say s e)) = Some h'.
Proof. intros [H _] E. cbn. rewrite replay_app, H. cbn. now rewrite E. Qed.

Lemma close_holds o rs s f b s' : holds s (Some (f, b)) -> closeConnection o rs s = Some s' -> holds s' None.
Proof.
  intros [H [E Hf]] C. unfold closeConnection in C.
  assert (L : (cs_fd s <? 0) = false) by (apply Z.ltb_ge; lia). rewrite L in C.
  assert (P : forall t, holds (c_fd (c_say (c_pass s t) (CClose (cs_fd s))) (-1)) None).
  { intros t. split; [|reflexivity]. cbn. rewrite replay_app, H. cbn. now rewrite E, Z.eqb_refl. }
  destruct (tagLen (co_type o) =? 0).
  - injection C as <-. split; [|reflexivity]. cbn. rewrite replay_app, H. cbn. now rewrite E, Z.eqb_refl.
  - destruct (io_loop o (co_read o) true (tagLen (co_type o)) 0 0 rs) as [[k t]|]; [|discriminate C].
    injection C as <-. apply P.
Qed.

Lemma wait_holds o l : forall t s f w s', holds s (Some (f, false)) -> wait_loop o t l s = Some (w, s') ->
  holds s' (Some (f, false)) /\ Waits o t l w.
Proof.
  induction l as [|p r IH]; intros t s f w s' H E; [discriminate E|]. cbn in E.
  destruct (po_abort p) eqn:A; [injection E as <- <-; split; [exact H|now constructor]|].
  destruct (co_connect o <=? t) eqn:T.
  { injection E as <- <-. apply Z.leb_le in T. split; [exact H|now constructor]. }
  apply Z.leb_gt in T.
  destruct (poll (Z.min (co_connect o - t) (co_abort o)) p) as [res dt] eqn:P.
  set (s1 := c_pass (c_say s (CPoll (cs_fd s) (Z.min (co_connect o - t) (co_abort o)))) dt) in E.
  assert (H1 : holds s1 (Some (f, false))).
  { destruct H as [H [F Hf]]. split; [|now split]. cbn. rewrite replay_app, H. cbn. now rewrite F, Z.eqb_refl. }
  destruct (0 <? res) eqn:R.
  { injection E as <- <-. apply Z.ltb_lt in R. split; [exact H1|]. apply W_ready; [exact A|exact T|]. rewrite P. cbn. lia. }
  apply Z.ltb_ge in R.
  destruct ((res =? 0) || po_intr p) eqn:G.
  - destruct (IH _ _ _ _ _ H1 E) as [H2 W]. split; [exact H2|].
    eapply W_again; [exact A|exact T|exact P| |exact W].
    apply orb_prop in G. destruct G as [G|G]; [left; now apply Z.eqb_eq|].
    destruct (Z.eq_dec res 0); [now left|right; split; [lia|exact G]].
  - injection E as <- <-. apply orb_false_elim in G. destruct G as [G1 G2]. apply Z.eqb_neq in G1.
    split; [exact H1|]. apply W_broken; [exact A|exact T| |exact G2]. rewrite P. cbn. lia.
Qed.

(** ** One address *)
Lemma try_holds o a s x : -1 <= ad_fd a -> holds s None -> try_addr o a s = Some x ->
  match x with
  | Next s' => passed_over o a /\ holds s' None
  | Stop s' => up o a /\ holds s' (Some (ad_fd a, true))
  | Leave code s' => ends o a code /\ holds s' None
  end.
Proof.
  intros Hfd H E. unfold try_addr in E.
  destruct (ad_fd a =? -1) eqn:F.
  { apply Z.eqb_eq in F. injection E as <-. split; [now left|exact H]. }
  apply Z.eqb_neq in F.
  set (s1 := c_fd (c_say s (COpen (ad_fd a))) (ad_fd a)) in E.
  assert (H1 : holds s1 (Some (ad_fd a, true))).
  { destruct H as [H _]. split; [|split; [reflexivity|lia]]. cbn. rewrite replay_app, H. reflexivity. }
  destruct (ad_nonblock a) eqn:NB; cbn [negb] in E.
  2:{ destruct (closeConnection o (ad_reads a) s1) as [s2|] eqn:C; [|discriminate E]. injection E as <-.
      split; [right; now left|exact (close_holds _ _ _ _ _ _ H1 C)]. }
  set (s2 := c_say s1 (CMode (ad_fd a) false)) in E.
  assert (H2 : holds s2 (Some (ad_fd a, false))).
  { split; [|split; [reflexivity|lia]]. apply (holds_say _ _ _ _ H1). cbn. now rewrite Z.eqb_refl. }
  assert (Fin : forall s3, holds s3 (Some (ad_fd a, false)) -> reached o a ->
    (if ad_block a then Some (Stop (c_say s3 (CMode (ad_fd a) true)))
     else match closeConnection o (ad_reads a) s3 with Some s4 => Some (Next s4) | None => None end) = Some x ->
    match x with
    | Next s' => passed_over o a /\ holds s' None
    | Stop s' => up o a /\ holds s' (Some (ad_fd a, true))
    | Leave code s' => ends o a code /\ holds s' None
    end).
  { intros s3 H3 R G. destruct (ad_block a) eqn:B.
    - injection G as <-. split; [repeat split; assumption|]. split.
      + apply (holds_say _ _ _ _ H3). cbn. now rewrite Z.eqb_refl.
      + destruct H3 as [_ H3]. exact H3.
    - destruct (closeConnection o (ad_reads a) s3) as [s4|] eqn:C; [|discriminate G]. injection G as <-.
      split; [right; right; right; right; now split|exact (close_holds _ _ _ _ _ _ H3 C)]. }
  destruct (ad_err a =? 0) eqn:E0.
  { apply Z.eqb_eq in E0. apply (Fin s2 H2); [now left|exact E]. }
  apply Z.eqb_neq in E0.
  destruct (ad_err a =? EINPROGRESS) eqn:EI; cbn [negb] in E.
  2:{ apply Z.eqb_neq in EI. destruct (closeConnection o (ad_reads a) s2) as [s3|] eqn:C; [|discriminate E]. injection E as <-.
      split; [right; right; left; now split|exact (close_holds _ _ _ _ _ _ H2 C)]. }
  apply Z.eqb_eq in EI.
  destruct (wait_loop o 0 (ad_polls a) s2) as [[w s3]|] eqn:W; [|discriminate E].
  destruct (wait_holds _ _ _ _ _ _ _ H2 W) as [H3 WW].
  destruct w as [|code].
  - assert (Give : forall P : Prop, P -> (P -> passed_over o a) ->
      (match closeConnection o (ad_reads a) s3 with Some s4 => Some (Next s4) | None => None end) = Some x ->
      match x with
      | Next s' => passed_over o a /\ holds s' None
      | Stop s' => up o a /\ holds s' (Some (ad_fd a, true))
      | Leave code s' => ends o a code /\ holds s' None
      end).
    { intros P p HP G. destruct (closeConnection o (ad_reads a) s3) as [s4|] eqn:C; [|discriminate G]. injection G as <-.
      split; [exact (HP p)|exact (close_holds _ _ _ _ _ _ H3 C)]. }
    destruct (ad_opt a) eqn:O; cbn [negb] in E.
    2:{ apply (Give True I); [intros _|exact E]. right; right; right; left. repeat split; try assumption. now left. }
    destruct (ad_soerr a =? 0) eqn:SE; cbn [negb] in E.
    + apply Z.eqb_eq in SE. apply (Fin s3 H3); [right; repeat split; assumption|exact E].
    + apply Z.eqb_neq in SE. apply (Give True I); [intros _|exact E]. right; right; right; left. repeat split; try assumption. now right.
  - destruct (closeConnection o (ad_reads a) s3) as [s4|] eqn:C; [|discriminate E]. injection E as <-.
    split; [repeat split; assumption|exact (close_holds _ _ _ _ _ _ H3 C)].
Qed.

(** ** All addresses *)
Lemma tries_holds o l : forall s code s', Forall (fun a => -1 <= ad_fd a) l -> holds s None ->
  try_addrs o l s = Some (code, s') ->
  decided o l code (cs_fd s') /\ (if code =? OK then holds s' (Some (cs_fd s', true)) else holds s' None).
Proof.
  induction l as [|a r IH]; intros s code s' F H E; cbn in E.
  - pose proof H as [_ Hf]. rewrite Hf in E. injection E as <- <-.
    split; [left; repeat split; [constructor|exact Hf]|exact H].
  - inversion F as [|? ? Fa Fr]; subst.
    destruct (try_addr o a s) as [[s1|s1|c s1]|] eqn:T; [| | |discriminate E];
      pose proof (try_holds _ _ _ _ Fa H T) as [P H1].
    + destruct (IH _ _ _ Fr H1 E) as [D H2]. split; [|exact H2].
      destruct D as [[D [-> Ef]]|(pre & b & post & -> & Fp & D)].
      * left. repeat split; [now constructor|exact Ef].
      * right. exists (a :: pre), b, post. split; [reflexivity|]. split; [now constructor|exact D].
    + pose proof H1 as [_ [Hf Hp]].
      assert (L : (cs_fd s1 <? 0) = false) by (apply Z.ltb_ge; lia). rewrite L in E. injection E as <- <-.
      split; [|rewrite Hf; exact H1]. right. exists [], a, r. split; [reflexivity|]. split; [constructor|].
      left. split; [exact P|]. split; [reflexivity|exact Hf].
    + injection E as <- <-. pose proof H1 as [_ Hf].
      split; [right; exists [], a, r; split; [reflexivity|]; split; [constructor|]; right; split; [exact P|exact Hf]|].
      destruct P as (_ & _ & _ & P).
      assert (N : c <> OK).
      { clear -P. remember (Gives c) as w eqn:Ew. induction P; try discriminate Ew; try (injection Ew as <-; discriminate). exact (IHP Ew). }
      apply Z.eqb_neq in N. rewrite N. exact H1.
Qed.

(** ** Time *)
Lemma io_time o timeout full n d l : forall k t k' t', 0 < timeout -> 0 <= d -> 0 <= t < timeout -> Forall (io_sane d) l ->
  io_loop o timeout full n k t l = Some (k', t') -> t <= t' < timeout + d \/ t' = t.
Proof.
  induction l as [|a r IH]; intros k t k' t' Ht Hd H F E; cbn in E; destruct (n <=? k); try discriminate E;
    try (injection E as <- <-; now right).
  inversion F as [|? ? Fa Fr]; subst. unfold io_sane in Fa.
  repeat match type of E with
  | (if ?b then _ else _) = _ => destruct b eqn:?
  end; try (injection E as <- <-; left; lia).
  apply andb_false_iff in Heqb3. destruct Heqb3 as [G|G]; [apply Z.ltb_ge in G; lia|]. apply Z.leb_gt in G.
  destruct (IH _ _ _ _ Ht Hd (conj (ltac:(lia) : 0 <= t + io_dt a) G) Fr E) as [X|X]; left; lia.
Qed.

Definition closing (o : copts) (d : Z) : Z := if tagLen (co_type o) =? 0 then 0 else co_read o + d.
Definition spends (s s' : cstate) (x : Z) : Prop := cs_now s <= cs_now s' <= cs_now s + x.

Lemma close_time o d rs s s' : 0 < co_read o -> 0 <= d -> Forall (io_sane d) rs ->
  closeConnection o rs s = Some s' -> spends s s' (closing o d).
Proof.
  intros Hr Hd F C. unfold closeConnection in C. unfold spends, closing.
  destruct (cs_fd s <? 0); [injection C as <-; destruct (tagLen (co_type o) =? 0); lia|].
  destruct (tagLen (co_type o) =? 0); [injection C as <-; cbn; lia|].
  destruct (io_loop o (co_read o) true (tagLen (co_type o)) 0 0 rs) as [[k t]|] eqn:E; [|discriminate C].
  injection C as <-. cbn.
  destruct (io_time o (co_read o) true _ d rs 0 0 k t Hr Hd (conj (Z.le_refl 0) Hr) F E); lia.
Qed.

Lemma within_app m l r : polls_within m l -> polls_within m r -> polls_within m (l ++ r).
Proof. intros A B fd t H. apply in_app_or in H. destruct H; eauto. Qed.
Lemma within_one m e : (forall fd t, e = CPoll fd t -> 0 < t <= m) -> polls_within m [e].
Proof. intros A fd t [H|[]]. exact (A _ _ H). Qed.
Lemma close_within o m rs s s' : polls_within m (cs_tr s) -> closeConnection o rs s = Some s' -> polls_within m (cs_tr s').
Proof.
  intros W C. unfold closeConnection in C.
  destruct (cs_fd s <? 0); [injection C as <-; exact W|].
  destruct (tagLen (co_type o) =? 0).
  - injection C as <-. cbn. apply within_app; [exact W|]. apply within_one. intros; discriminate.
  - destruct (io_loop o (co_read o) true (tagLen (co_type o)) 0 0 rs) as [[k t]|]; [|discriminate C].
    injection C as <-. cbn. apply within_app; [exact W|]. apply within_one. intros; discriminate.
Qed.

Lemma wait_time o l : forall t s w s', 0 < co_abort o -> 0 <= t -> Forall (fun p => 0 <= po_after p) l ->
  polls_within (Z.min (co_connect o) (co_abort o)) (cs_tr s) ->
  wait_loop o t l s = Some (w, s') ->
  spends s s' (Z.max 0 (co_connect o - t)) /\ polls_within (Z.min (co_connect o) (co_abort o)) (cs_tr s').
Proof.
  induction l as [|p r IH]; intros t s w s' Ha Ht F W E; [discriminate E|]. cbn in E.
  inversion F as [|? ? Fp Fr]; subst. unfold spends in *.
  destruct (po_abort p); [injection E as <- <-; split; [lia|exact W]|].
  destruct (co_connect o <=? t) eqn:T; [injection E as <- <-; split; [lia|exact W]|].
  apply Z.leb_gt in T.
  set (m := Z.min (co_connect o - t) (co_abort o)) in *.
  assert (D : 0 <= snd (poll m p) <= m).
  { unfold poll. assert (M : (m <? 0) = false) by (apply Z.ltb_ge; lia). rewrite M. cbn [orb].
    destruct (po_after p <=? m) eqn:G; cbn [snd]; [apply Z.leb_le in G; lia|lia]. }
  destruct (poll m p) as [res dt] eqn:P. cbn [snd] in D.
  set (s1 := c_pass (c_say s (CPoll (cs_fd s) m)) dt) in E.
  assert (W1 : polls_within (Z.min (co_connect o) (co_abort o)) (cs_tr s1)).
  { cbn. apply within_app; [exact W|]. apply within_one. intros fd t' X. injection X as <- <-. lia. }
  assert (N1 : cs_now s1 = cs_now s + dt) by reflexivity.
  destruct (0 <? res); [injection E as <- <-; split; [lia|exact W1]|].
  destruct ((res =? 0) || po_intr p).
  - destruct (IH (t + dt) s1 w s' Ha ltac:(lia) Fr W1 E) as [A B]. split; [lia|exact B].
  - injection E as <- <-. split; [lia|exact W1].
Qed.

Lemma try_time o d a s x : 0 < co_abort o -> 0 < co_read o -> 0 <= d -> sane d a ->
  polls_within (Z.min (co_connect o) (co_abort o)) (cs_tr s) -> try_addr o a s = Some x ->
  let s' := match x with Next s' => s' | Stop s' => s' | Leave _ s' => s' end in
  spends s s' (Z.max 0 (co_connect o) + closing o d) /\ polls_within (Z.min (co_connect o) (co_abort o)) (cs_tr s').
Proof.
  intros Ha Hr Hd (_ & Fp & Fr) W E. unfold try_addr in E.
  assert (C0 : 0 <= closing o d) by (unfold closing; destruct (tagLen (co_type o) =? 0); lia).
  destruct (ad_fd a =? -1); [injection E as <-; split; [unfold spends; lia|exact W]|].
  set (s1 := c_fd (c_say s (COpen (ad_fd a))) (ad_fd a)) in E.
  assert (W1 : polls_within (Z.min (co_connect o) (co_abort o)) (cs_tr s1)).
  { cbn. apply within_app; [exact W|]. apply within_one. intros; discriminate. }
  assert (Cl : forall s2 s3, closeConnection o (ad_reads a) s2 = Some s3 ->
    cs_now s <= cs_now s2 <= cs_now s + Z.max 0 (co_connect o) ->
    polls_within (Z.min (co_connect o) (co_abort o)) (cs_tr s2) ->
    spends s s3 (Z.max 0 (co_connect o) + closing o d) /\ polls_within (Z.min (co_connect o) (co_abort o)) (cs_tr s3)).
  { intros s2 s3 C N W2. pose proof (close_time o d _ _ _ Hr Hd Fr C) as X. unfold spends in *.
    split; [lia|exact (close_within _ _ _ _ _ W2 C)]. }
  assert (N1 : cs_now s1 = cs_now s) by reflexivity.
  destruct (ad_nonblock a); cbn [negb] in E.
  2:{ destruct (closeConnection o (ad_reads a) s1) as [s2|] eqn:C; [|discriminate E]. injection E as <-.
      apply (Cl _ _ C); [lia|exact W1]. }
  set (s2 := c_say s1 (CMode (ad_fd a) false)) in E.
  assert (W2 : polls_within (Z.min (co_connect o) (co_abort o)) (cs_tr s2)).
  { cbn. apply within_app; [exact W1|]. apply within_one. intros; discriminate. }
  assert (N2 : cs_now s2 = cs_now s) by reflexivity.
  assert (Fin : forall s3, cs_now s <= cs_now s3 <= cs_now s + Z.max 0 (co_connect o) ->
    polls_within (Z.min (co_connect o) (co_abort o)) (cs_tr s3) ->
    (if ad_block a then Some (Stop (c_say s3 (CMode (ad_fd a) true)))
     else match closeConnection o (ad_reads a) s3 with Some s4 => Some (Next s4) | None => None end) = Some x ->
    let s' := match x with Next s' => s' | Stop s' => s' | Leave _ s' => s' end in
    spends s s' (Z.max 0 (co_connect o) + closing o d) /\ polls_within (Z.min (co_connect o) (co_abort o)) (cs_tr s')).
  { intros s3 N3 W3 G. destruct (ad_block a).
    - injection G as <-. split; [unfold spends; cbn [c_say cs_now]; lia|]. cbn [c_say cs_tr].
      apply within_app; [exact W3|]. apply within_one. intros; discriminate.
    - destruct (closeConnection o (ad_reads a) s3) as [s4|] eqn:C; [|discriminate G]. injection G as <-.
      exact (Cl _ _ C N3 W3). }
  destruct (ad_err a =? 0); [apply (Fin s2); [lia|exact W2|exact E]|].
  destruct (ad_err a =? EINPROGRESS); cbn [negb] in E.
  2:{ destruct (closeConnection o (ad_reads a) s2) as [s3|] eqn:C; [|discriminate E]. injection E as <-.
      apply (Cl _ _ C); [lia|exact W2]. }
  destruct (wait_loop o 0 (ad_polls a) s2) as [[w s3]|] eqn:Wt; [|discriminate E].
  destruct (wait_time o _ 0 s2 w s3 Ha ltac:(lia) Fp W2 Wt) as [N3 W3]. unfold spends in N3.
  destruct w as [|code].
  - destruct (ad_opt a); cbn [negb] in E.
    2:{ destruct (closeConnection o (ad_reads a) s3) as [s4|] eqn:C; [|discriminate E]. injection E as <-.
        apply (Cl _ _ C); [lia|exact W3]. }
    destruct (ad_soerr a =? 0); cbn [negb] in E.
    + apply (Fin s3); [lia|exact W3|exact E].
    + destruct (closeConnection o (ad_reads a) s3) as [s4|] eqn:C; [|discriminate E]. injection E as <-.
      apply (Cl _ _ C); [lia|exact W3].
  - destruct (closeConnection o (ad_reads a) s3) as [s4|] eqn:C; [|discriminate E]. injection E as <-.
    apply (Cl _ _ C); [lia|exact W3].
Qed.

Lemma tries_time o d l : forall s code s', 0 < co_abort o -> 0 < co_read o -> 0 <= d -> Forall (sane d) l ->
  polls_within (Z.min (co_connect o) (co_abort o)) (cs_tr s) -> try_addrs o l s = Some (code, s') ->
  spends s s' (Z.of_nat (length l) * (Z.max 0 (co_connect o) + closing o d))
  /\ polls_within (Z.min (co_connect o) (co_abort o)) (cs_tr s').
Proof.
  induction l as [|a r IH]; intros s code s' Ha Hr Hd F W E; cbn in E.
  - injection E as <- <-. split; [unfold spends; cbn; lia|exact W].
  - inversion F as [|? ? Fa Frr]; subst.
    assert (C0 : 0 <= closing o d) by (unfold closing; destruct (tagLen (co_type o) =? 0); lia).
    assert (M0 : 0 <= Z.max 0 (co_connect o)) by lia.
    assert (K0 : 0 <= Z.of_nat (length r) * (Z.max 0 (co_connect o) + closing o d)) by (apply Z.mul_nonneg_nonneg; lia).
    assert (K1 : Z.of_nat (length (a :: r)) * (Z.max 0 (co_connect o) + closing o d)
      = Z.max 0 (co_connect o) + closing o d + Z.of_nat (length r) * (Z.max 0 (co_connect o) + closing o d)).
    { cbn [length]. rewrite Nat2Z.inj_succ, Z.mul_succ_l. lia. }
    rewrite K1.
    destruct (try_addr o a s) as [x|] eqn:T; [|discriminate E].
    pose proof (try_time o d a s x Ha Hr Hd Fa W T) as [N1 W1]. unfold spends in *.
    destruct x as [s1|s1|c s1].
    + destruct (IH _ _ _ Ha Hr Hd Frr W1 E) as [N2 W2]. split; [lia|exact W2].
    + injection E as <- <-. split; [lia|exact W1].
    + injection E as <- <-. split; [lia|exact W1].
Qed.

(** ** The theorems *)
Lemma connect_sound o l s code s' :
  cs_fd s = -1 -> cs_tr s = [] -> Forall (fun a => -1 <= ad_fd a) l ->
  connect o (Some l) s = Ret (Some (code, s')) ->
  decided o l code (cs_fd s')
  /\ replay None (cs_tr s') = Some (if code =? OK then Some (cs_fd s', true) else None).
Proof.
  intros Hf Ht F E. unfold connect in E. rewrite Hf in E. cbn in E. injection E as E.
  assert (H : holds s None) by (split; [now rewrite Ht|exact Hf]).
  destruct (tries_holds _ _ _ _ _ F H E) as [D R]. split; [exact D|].
  destruct (code =? OK); exact (proj1 R).
Qed.

Lemma connect_time o d l s code s' :
  0 < co_abort o -> 0 < co_read o -> 0 <= d -> cs_tr s = [] -> Forall (sane d) l ->
  connect o (Some l) s = Ret (Some (code, s')) ->
  cs_now s' - cs_now s <= Z.of_nat (length l)
    * (Z.max 0 (co_connect o) + (if co_type o =? ENC_AES128_GCM then co_read o + d else 0))
  /\ polls_within (Z.min (co_connect o) (co_abort o)) (cs_tr s').
Proof.
  intros Ha Hr Hd Ht F E. unfold connect in E. destruct (0 <=? cs_fd s); [discriminate E|]. injection E as E.
  assert (W : polls_within (Z.min (co_connect o) (co_abort o)) (cs_tr s)) by (rewrite Ht; intros ? ? []).
  destruct (tries_time o d l s code s' Ha Hr Hd F W E) as [N P]. split; [|exact P].
  assert (C : closing o d = if co_type o =? ENC_AES128_GCM then co_read o + d else 0).
  { unfold closing, tagLen. destruct (co_type o =? ENC_AES128_GCM); reflexivity. }
  rewrite C in N. unfold spends in N. lia.
Qed.

(** A connection that comes up in time is found at the moment it is up, however the
    waiting is cut; one that does not is given up when the time is over. *)
Lemma wait_comes_up o d n : forall t s, 0 < co_abort o -> 0 <= t <= d -> t < co_connect o ->
  Z.min d (co_connect o) - t <= Z.of_nat n * co_abort o ->
  exists s', wait_loop o t (comes_up o d (S n) t) s
    = Some (if d <=? co_connect o then Ready else Gives CONN_ERROR_RETRYABLE, s')
    /\ cs_now s' = cs_now s + (Z.min d (co_connect o) - t).
Proof.
  induction n as [|n IH]; intros t s Ha Hd Hc Hn.
  - assert (t = d) by lia. subst t. cbn [wait_loop comes_up po_abort].
    assert (L : (co_connect o <=? d) = false) by (apply Z.leb_gt; lia). rewrite L.
    unfold poll. cbn [po_after po_res po_intr].
    set (m := Z.min (co_connect o - d) (co_abort o)).
    assert (M : (m <? 0) = false) by (apply Z.ltb_ge; lia). rewrite M. cbn [orb].
    assert (G : (d - d <=? m) = true) by (apply Z.leb_le; lia). rewrite G. cbn.
    assert (Q : (d <=? co_connect o) = true) by (apply Z.leb_le; lia). rewrite Q.
    eexists; split; [reflexivity|]. cbn. lia.
  - cbn [wait_loop]. change (comes_up o d (S (S n)) t)
      with ({| po_abort := false; po_after := d - t; po_res := 1; po_intr := false |}
           :: comes_up o d (S n) (Z.min d (t + Z.min (co_connect o - t) (co_abort o)))).
    cbn [wait_loop po_abort].
    assert (L : (co_connect o <=? t) = false) by (apply Z.leb_gt; lia). rewrite L.
    unfold poll. cbn [po_after po_res po_intr].
    set (m := Z.min (co_connect o - t) (co_abort o)).
    assert (M : (m <? 0) = false) by (apply Z.ltb_ge; lia). rewrite M. cbn [orb].
    destruct (d - t <=? m) eqn:G.
    + apply Z.leb_le in G. cbn. assert (Q : (d <=? co_connect o) = true) by (apply Z.leb_le; lia). rewrite Q.
      eexists; split; [reflexivity|]. cbn. lia.
    + apply Z.leb_gt in G. cbn [Z.ltb Z.compare Z.eqb orb].
      replace (Z.min d (t + m)) with (t + m) by lia.
      destruct (Z_lt_le_dec (t + m) (co_connect o)) as [Lt|Le].
      * destruct (IH (t + m) (c_pass (c_say s (CPoll (cs_fd s) m)) m) Ha ltac:(lia) Lt) as (s' & E & N).
        { rewrite Nat2Z.inj_succ, Z.mul_succ_l in Hn. unfold m in *. lia. }
        exists s'. split; [exact E|]. rewrite N. cbn. lia.
      * assert (t + m = co_connect o) by lia.
        cbn [wait_loop comes_up po_abort].
        assert (L2 : (co_connect o <=? t + m) = true) by (apply Z.leb_le; lia). rewrite L2.
        assert (Q : (d <=? co_connect o) = false) by (apply Z.leb_gt; lia). rewrite Q.
        eexists; split; [reflexivity|]. cbn. lia.
Qed.

(** A descriptor that has nothing to read and says so is asked for ever when there is
    neither a read time-out nor a check for aborts. *)
Definition nothing_yet : ioans := {| io_ret := -1; io_again := true; io_dt := 0; io_abort := true |}.
Lemma close_stuck o s n : co_read o <= 0 -> co_abort o <= 0 -> co_type o = ENC_AES128_GCM -> 0 <= cs_fd s ->
  closeConnection o (repeat nothing_yet n) s = None.
Proof.
  intros Hr Ha Ht Hf. unfold closeConnection.
  assert (L : (cs_fd s <? 0) = false) by (apply Z.ltb_ge; lia). rewrite L, Ht. cbn.
  assert (A : forall m, io_loop o (co_read o) true 16 0 0 (repeat nothing_yet m) = None).
  { induction m as [|m IH]; [reflexivity|]. cbn.
    assert (A1 : (0 <? co_abort o) = false) by (apply Z.ltb_ge; lia).
    assert (R1 : (0 <? co_read o) = false) by (apply Z.ltb_ge; lia). rewrite A1, R1. exact IH. }
  now rewrite A.
Qed.

Lemma connect_once o l s : 0 <= cs_fd s <-> connect o l s = Crash.
Proof.
  unfold connect. destruct (0 <=? cs_fd s) eqn:E.
  - apply Z.leb_le in E. tauto.
  - apply Z.leb_gt in E. split; [lia|discriminate].
Qed.

(** ** It returns *)
Lemma wait_returns o l : forall t s, 0 < co_abort o -> 0 <= t -> l <> [] -> Forall (fun p => 1 <= po_after p) l ->
  co_connect o - t < Z.of_nat (length l) -> exists r, wait_loop o t l s = Some r.
Proof.
  induction l as [|p r IH]; intros t s Ha Ht N F L; [contradiction|]. cbn [wait_loop].
  inversion F as [|? ? Fp Fr]; subst.
  destruct (po_abort p); [eexists; reflexivity|].
  destruct (co_connect o <=? t) eqn:T; [eexists; reflexivity|]. apply Z.leb_gt in T.
  set (m := Z.min (co_connect o - t) (co_abort o)).
  assert (D : 1 <= snd (poll m p)).
  { unfold poll. destruct ((m <? 0) || (po_after p <=? m)); cbn [snd]; lia. }
  destruct (poll m p) as [res dt]. cbn [snd] in D.
  destruct (0 <? res); [eexists; reflexivity|].
  destruct ((res =? 0) || po_intr p); [|eexists; reflexivity].
  cbn [length] in L. rewrite Nat2Z.inj_succ in L.
  apply IH; [exact Ha|lia| |exact Fr|lia].
  intros ->. cbn in L. lia.
Qed.

Lemma close_returns o rs s : co_type o <> ENC_AES128_GCM -> exists s', closeConnection o rs s = Some s'.
Proof.
  intros H. unfold closeConnection, tagLen. apply Z.eqb_neq in H. rewrite H.
  destruct (cs_fd s <? 0); eexists; reflexivity.
Qed.

Lemma try_returns o a s : 0 < co_abort o -> co_type o <> ENC_AES128_GCM -> lively o a ->
  exists x, try_addr o a s = Some x.
Proof.
  intros Ha Hg L. unfold try_addr.
  assert (G : forall s', exists x, match closeConnection o (ad_reads a) s' with Some s2 => Some (Next s2) | None => None end = Some x).
  { intros s'. destruct (close_returns o (ad_reads a) s' Hg) as [s2 ->]. eexists; reflexivity. }
  assert (Fi : forall s', exists x, (if ad_block a then Some (Stop (c_say s' (CMode (ad_fd a) true)))
     else match closeConnection o (ad_reads a) s' with Some s2 => Some (Next s2) | None => None end) = Some x).
  { intros s'. destruct (ad_block a); [eexists; reflexivity|apply G]. }
  destruct (ad_fd a =? -1); [eexists; reflexivity|].
  destruct (ad_nonblock a); cbn [negb]; [|apply G].
  destruct (ad_err a =? 0); [apply Fi|].
  destruct (ad_err a =? EINPROGRESS) eqn:E; cbn [negb]; [|apply G].
  apply Z.eqb_eq in E. specialize (L E).
  set (s2 := c_say (c_fd (c_say s (COpen (ad_fd a))) (ad_fd a)) (CMode (ad_fd a) false)).
  assert (W : exists r, wait_loop o 0 (ad_polls a) s2 = Some r).
  { destruct L as [(p & r & -> & P)|(F & L & N)].
    - cbn [wait_loop]. destruct (po_abort p) eqn:A; [eexists; reflexivity|].
      destruct P as [P|[P Q]]; [discriminate P|].
      destruct (co_connect o <=? 0) eqn:T; [eexists; reflexivity|]. apply Z.leb_gt in T.
      unfold poll. replace (co_connect o - 0) with (co_connect o) by lia.
      assert (Q1 : (po_after p <=? Z.min (co_connect o) (co_abort o)) = true) by now apply Z.leb_le.
      rewrite Q1, orb_true_r. apply Z.ltb_lt in P. rewrite P. eexists; reflexivity.
    - apply wait_returns; try assumption; lia. }
  destruct W as [[w s3] ->]. destruct w as [|code].
  - destruct (ad_opt a); cbn [negb]; [|apply G]. destruct (ad_soerr a =? 0); cbn [negb]; [apply Fi|apply G].
  - destruct (close_returns o (ad_reads a) s3 Hg) as [s4 ->]. eexists; reflexivity.
Qed.

Lemma connect_returns o l s :
  0 < co_abort o -> co_type o <> ENC_AES128_GCM -> cs_fd s < 0 -> Forall (lively o) l ->
  exists r, connect o (Some l) s = Ret (Some r).
Proof.
  intros Ha Hg Hf F. unfold connect. assert (L : (0 <=? cs_fd s) = false) by (apply Z.leb_gt; lia). rewrite L. clear L Hf.
  assert (A : exists r, try_addrs o l s = Some r).
  { revert s; induction l as [|a r IH]; intros s; [eexists; reflexivity|].
    inversion F as [|? ? Fa Fr]; subst. cbn [try_addrs].
    destruct (try_returns o a s Ha Hg Fa) as [x ->].
    destruct x as [s1|s1|c s1]; [exact (IH Fr s1)|eexists; reflexivity|eexists; reflexivity]. }
  destruct A as [r ->]. eexists; reflexivity.
Qed.

(** What the loop around ::read and ::write says. *)
Lemma io_loop_says o timeout full n l : forall k t k' t', 0 <= k ->
  io_loop o timeout full n k t l = Some (k', t') ->
  exists used rest, l = used ++ rest /\ t' = t + io_took used /\
    (0 < k + io_bytes used -> k' = k + io_bytes used) /\ (k + io_bytes used = 0 -> k' <= 0) /\
    (k + io_bytes used < n -> exists u a, used = u ++ [a] /\ io_gives_up o timeout t' full a).
Proof.
  assert (HB : forall x, 0 <= io_bytes x) by (induction x; cbn; lia).
  induction l as [|a r IH]; intros k t k' t' Hk H; cbn [io_loop] in H.
  - destruct (n <=? k) eqn:En; [|discriminate]. injection H as <- <-. apply Z.leb_le in En.
    exists [], []. cbn. repeat split; try lia.
  - destruct (n <=? k) eqn:En.
    + injection H as <- <-. apply Z.leb_le in En. exists [], (a :: r). cbn. repeat split; try lia.
    + assert (HOne : forall kk, Some (kk, t + io_dt a) = Some (k', t') -> io_gives_up o timeout (t + io_dt a) full a ->
        (0 < k + Z.max 0 (io_ret a) -> kk = k + Z.max 0 (io_ret a)) -> (k + Z.max 0 (io_ret a) = 0 -> kk <= 0) ->
        exists used rest, a :: r = used ++ rest /\ t' = t + io_took used /\
        (0 < k + io_bytes used -> k' = k + io_bytes used) /\ (k + io_bytes used = 0 -> k' <= 0) /\
        (k + io_bytes used < n -> exists u a, used = u ++ [a] /\ io_gives_up o timeout t' full a)).
      { intros kk E Hg H1 H2. injection E as <- <-. exists [a], r. cbn [io_bytes io_took app]. rewrite !Z.add_0_r.
        split; [reflexivity|]. split; [reflexivity|]. split; [exact H1|]. split; [exact H2|].
        intros _. exists [], a. split; [reflexivity|exact Hg]. }
      destruct ((io_ret a <? 0) && negb (io_again a)) eqn:E1.
      { apply andb_prop in E1. destruct E1 as [E1 E2]. apply Z.ltb_lt in E1. apply Bool.negb_true_iff in E2.
        eapply HOne; [exact H|left; split; assumption| |]; intros Hx; destruct (0 <? k) eqn:Ek; try lia;
          apply Z.ltb_ge in Ek || apply Z.ltb_lt in Ek; lia. }
      destruct (io_ret a =? 0) eqn:E2.
      { apply Z.eqb_eq in E2. eapply HOne; [exact H|right; left; exact E2| |]; lia. }
      apply Z.eqb_neq in E2.
      destruct ((0 <? io_ret a) && negb full) eqn:E3.
      { apply andb_prop in E3. destruct E3 as [E3 E4]. rewrite E3 in H. apply Z.ltb_lt in E3. apply Bool.negb_true_iff in E4.
        eapply HOne; [exact H|right; right; left; split; assumption| |]; lia. }
      assert (Ek1 : (if 0 <? io_ret a then k + io_ret a else k) = k + Z.max 0 (io_ret a)).
      { destruct (0 <? io_ret a) eqn:E; [apply Z.ltb_lt in E|apply Z.ltb_ge in E]; lia. }
      rewrite Ek1 in H. set (k1 := k + Z.max 0 (io_ret a)) in *.
      destruct ((0 <? co_abort o) && io_abort a) eqn:E4.
      { apply andb_prop in E4. destruct E4 as [E4 E5]. apply Z.ltb_lt in E4.
        eapply HOne; [exact H|right; right; right; left; split; assumption| |]; intros Hx; destruct (0 <? k1) eqn:Ek; try lia;
          apply Z.ltb_ge in Ek || apply Z.ltb_lt in Ek; lia. }
      destruct ((0 <? timeout) && (timeout <=? t + io_dt a)) eqn:E5.
      { apply andb_prop in E5. destruct E5 as [E5 E6]. apply Z.ltb_lt in E5. apply Z.leb_le in E6.
        eapply HOne; [exact H|right; right; right; right; lia| |]; intros Hx; destruct (0 <? k1) eqn:Ek; try lia;
          apply Z.ltb_ge in Ek || apply Z.ltb_lt in Ek; lia. }
      destruct (IH k1 _ _ _ ltac:(lia) H) as (u & rest & -> & Ht & H1 & H2 & H3).
      exists (a :: u), rest. cbn [io_bytes io_took app]. split; [reflexivity|]. split; [lia|].
      unfold k1 in *. split; [intros Hx; rewrite H1; lia|]. split; [intros Hx; apply H2; lia|].
      intros Hx. destruct H3 as (u' & a' & -> & Hg); [lia|]. exists (a :: u'), a'. split; [reflexivity|exact Hg].
Qed.
Lemma io_result o timeout full n l k t : io_loop o timeout full n 0 0 l = Some (k, t) ->
  exists used rest, l = used ++ rest /\ t = io_took used /\
    (0 < io_bytes used -> k = io_bytes used) /\ (io_bytes used = 0 -> k <= 0) /\
    (io_bytes used < n -> exists u a, used = u ++ [a] /\ io_gives_up o timeout t full a).
Proof. exact (io_loop_says o timeout full n l 0 0 k t (Z.le_refl 0)). Qed.
Lemma connect_unknown o s : cs_fd s < 0 -> connect o None s = Ret (Some (CONN_ERROR, s)).
Proof. intros H. unfold connect. replace (0 <=? cs_fd s) with false; [reflexivity|]. symmetry. apply Z.leb_gt. exact H. Qed.
