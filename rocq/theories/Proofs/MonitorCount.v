(** C13: the queue's account of blocks and of failures. *)
From Verif Require Export Model.QueueMonitor Spec.MonitorSpec Proofs.QueueMonitorFacts.
From Coq Require Import List Lia.

Import ListNotations.
Definition OP := tsum (fun t => b2n (opening t)).
Lemma OP_stable : wake_stable (fun t => b2n (opening t)).
Proof. reflexivity. Qed.
Lemma OP_set l i t x : nth_error l i = Some t ->
  (OP (set_nth l i x) + b2n (opening t) = OP l + b2n (opening x))%nat.
Proof. intros H; apply (tsum_set (fun t => b2n (opening t)) l i t x H). Qed.
Lemma OP_all l : OP (notify_all l) = OP l.
Proof. apply tsum_notify_all, OP_stable. Qed.
Lemma accounted_OP m : accounted m = (m_q m + OP (m_threads m) + m_deq m)%nat.
Proof. unfold accounted; rewrite how_many_sum; reflexivity. Qed.

Lemma take_accounted m i t : nth_error (m_threads m) i = Some t -> opening t = false ->
  wake t = t -> accounted (take m i) = accounted m.
Proof.
  intros Hi Ho Hw; rewrite !accounted_OP; unfold take.
  destruct (Nat.eqb_spec (m_q m) 0) as [Hq|Hq]; destruct (m_init m); cbn [andb negb m_q m_threads m_deq].
  - pose proof (OP_set _ _ _ (TNone (m_failed m)) Hi) as E; rewrite Ho in E; cbn in E; lia.
  - pose proof (OP_set _ _ _ TAsleep Hi) as E; rewrite Ho in E; cbn in E; lia.
  - destruct (Nat.eqb (Nat.pred (m_q m)) 0); cbn [andb].
    + assert (Hi' : nth_error (notify_all (m_threads m)) i = Some t)
        by (rewrite (nth_notify_all _ _ _ Hi), Hw; reflexivity).
      pose proof (OP_set _ _ _ (TOpening (m_failed m)) Hi') as E; rewrite Ho, OP_all in E; cbn in E; lia.
    + pose proof (OP_set _ _ _ (TOpening (m_failed m)) Hi) as E; rewrite Ho in E; cbn in E; lia.
  - rewrite andb_false_r; pose proof (OP_set _ _ _ (TOpening (m_failed m)) Hi) as E; rewrite Ho in E; cbn in E; lia.
Qed.
Lemma take_flags m i : m_init (take m i) = m_init m /\ m_called (take m i) = m_called m /\
  m_failed (take m i) = m_failed m.
Proof. unfold take; destruct (_ && _); [auto|]; destruct (Nat.eqb _ 0); auto. Qed.

Ltac plain Hi x := pose proof (OP_set _ _ _ x Hi) as OPE; cbn [b2n opening] in OPE;
  rewrite !accounted_OP; cbn [with_threads m_q m_threads m_deq] in *;
  split; [assumption|split; [assumption || reflexivity|split; [auto|left; lia]]].
Lemma blocks_accounted m m' : mstep m m' -> m_init m = true -> m_called m = true ->
  m_init m' = true /\ m_called m' = true /\ (m_failed m = true -> m_failed m' = true) /\
  (accounted m' = accounted m \/ (accounted m = S (accounted m') /\ m_failed m' = true)).
Proof.
  intros Hs Hin Hca; destruct Hs as [Hs|Hs];
    [destruct Hs as [m i Hi|m i Hi|m i b1 Hi|m i b1 Hi|m i b1 Hi|m i Hi|m i k Hi Hk|m i k Hi Hk|m i k ths Hi Hn|m i Hi]
    |destruct Hs as [m k ths Hini Hn|m Hini|m k ths Hini Hn|m ks d m' Hc Hr|m i Hi|m i b' Hi|m i k Hi Hk|m i Hi]];
    try congruence.
  - set (mm := {| m_clients := _; m_q := _; m_init := _; m_waiters := _; m_deq := _; m_failed := _; m_called := _; m_threads := _ |}).
    destruct (take_flags mm i) as (-> & -> & ->).
    rewrite (take_accounted mm i TEnter Hi eq_refl eq_refl); subst mm; cbn; auto.
  - destruct (take_flags m i) as (-> & -> & ->).
    rewrite (take_accounted m i TWoken Hi eq_refl eq_refl); auto.
  - plain Hi (TOpenedOk b1).
  - plain Hi TOpenFailed.
  - plain Hi (TGot b1).
  - pose proof (OP_set _ _ _ TEnter Hi) as E; cbn [b2n opening] in E.
    rewrite !accounted_OP; cbn [m_q m_threads m_deq m_init m_called m_failed] in *.
    split; [assumption|split; [assumption|split; [auto|right; split; [lia|reflexivity]]]].
  - assert (Hi' : nth_error (notify_all (m_threads m)) i = Some (TReturned k))
      by (rewrite (nth_notify_all _ _ _ Hi); reflexivity).
    pose proof (OP_all (m_threads m)). plain Hi' TIdle.
  - plain Hi (TNotifying k).
  - apply notify_one_facts in Hn; destruct Hn as (_ & _ & _ & _ & A5 & A6 & A7).
    assert (Hi' : nth_error ths i = Some (TNotifying (S k))) by (apply A7; [exact Hi|discriminate]).
    assert (OP ths = OP (m_threads m)) by (apply A5 || apply A6; exact OP_stable).
    plain Hi' (TNotifying k).
  - plain Hi TIdle.
  - plain Hi TEnter.
  - destruct Hi as [Hi|Hi]; plain Hi TIdle.
  - plain Hi (TReturned k).
  - plain Hi TWoken.
Qed.

(** How a thread's place changes: by itself, or it is woken. *)
Inductive goes (m m' : mon) : tst -> tst -> Prop :=
| Go_call : goes m m' TIdle TEnter
| Go_sleep t : t = TEnter \/ t = TWoken -> goes m m' t TAsleep
| Go_none t : t = TEnter \/ t = TWoken -> m_q m = 0%nat -> m_init m = true -> goes m m' t (TNone (m_failed m))
| Go_take t : t = TEnter \/ t = TWoken -> m_q m = S (m_q m') -> goes m m' t (TOpening (m_failed m))
| Go_ok b : goes m m' (TOpening b) (TOpenedOk b)
| Go_fail b : goes m m' (TOpening b) TOpenFailed
| Go_got b : m_deq m' = S (m_deq m) -> goes m m' (TOpenedOk b) (TGot b)
| Go_again : m_failed m' = true -> goes m m' TOpenFailed TEnter
| Go_done b : goes m m' (TGot b) TIdle
| Go_end b : goes m m' (TNone b) TIdle
| Go_return k : m_q m' = (m_q m + k)%nat -> (m_deq m = m_deq m' + k)%nat -> goes m m' TIdle (TReturned k)
| Go_notify k : goes m m' (TReturned k) (TNotifying k)
| Go_notified k : goes m m' (TNotifying (S k)) (TNotifying k)
| Go_out t : (exists k, t = TReturned k) \/ t = TNotifying 0 -> goes m m' t TIdle.

Lemma take_goes m0 m i j t t' : nth_error (m_threads m) i = Some t -> t = TEnter \/ t = TWoken ->
  m_q m = m_q m0 -> m_init m = m_init m0 -> m_failed m = m_failed m0 ->
  nth_error (m_threads (take m i)) j = Some t' ->
  exists u, nth_error (m_threads m) j = Some u /\ (t' = u \/ t' = wake u \/ goes m0 (take m i) u t').
Proof.
  intros Hi Ht Q I F E. destruct (Nat.eq_dec i j) as [<-|Hij].
  - exists t; split; [exact Hi|]. right; right. revert E; unfold take.
    destruct (Nat.eqb_spec (m_q m) 0) as [Hq|Hq]; destruct (m_init m) eqn:Ei; cbn [andb negb m_threads];
      try rewrite andb_false_r; intros E.
    + rewrite (nth_set_same _ _ _ _ Hi) in E; injection E as <-. rewrite F. apply Go_none; congruence || auto.
    + rewrite (nth_set_same _ _ _ _ Hi) in E; injection E as <-. apply Go_sleep; auto.
    + apply nth_set_cases in E; destruct E as [[_ ->]|[N _]]; [|congruence].
      rewrite F; apply Go_take; [auto|cbn [m_q]; lia].
    + apply nth_set_cases in E; destruct E as [[_ ->]|[N _]]; [|congruence].
      rewrite F; apply Go_take; [auto|cbn [m_q]; lia].
  - destruct (take_other _ _ _ _ Hij E) as (u & Eu & Hu). exists u; split; [exact Eu|]. tauto.
Qed.

Ltac stay Hi E := apply nth_set_cases in E; destruct E as [[<- ->]|[_ E]]; [eexists; split; [exact Hi|right; right]|
  eexists; split; [exact E|left; reflexivity]].
Lemma step_goes m m' j t' : mstep m m' -> nth_error (m_threads m') j = Some t' ->
  exists t, nth_error (m_threads m) j = Some t /\ (t' = t \/ t' = wake t \/ goes m m' t t').
Proof.
  intros Hs E; destruct Hs as [Hs|Hs];
    [destruct Hs as [m i Hi|m i Hi|m i b1 Hi|m i b1 Hi|m i b1 Hi|m i Hi|m i k Hi Hk|m i k Hi Hk|m i k ths Hi Hn|m i Hi]
    |destruct Hs as [m k ths Hini Hn|m Hini|m k ths Hini Hn|m ks d m' Hc Hr|m i Hi|m i b' Hi|m i k Hi Hk|m i Hi]];
    cbn [m_threads with_threads] in E.
  - refine (take_goes m _ i j TEnter t' _ _ _ _ _ E); auto.
  - refine (take_goes m _ i j TWoken t' _ _ _ _ _ E); auto.
  - stay Hi E. apply Go_ok.
  - stay Hi E. apply (Go_fail _ _ b1).
  - stay Hi E. apply Go_got; reflexivity.
  - stay Hi E. apply Go_again; reflexivity.
  - apply nth_set_cases in E; destruct E as [[<- ->]|[_ E]].
    + eexists; split; [exact Hi|right; right; apply Go_out; eauto].
    + unfold notify_all in E; rewrite nth_error_map in E.
      destruct (nth_error (m_threads m) j) as [u|]; [|discriminate]; injection E as <-; exists u; auto.
  - stay Hi E. apply Go_notify.
  - apply nth_set_cases in E; destruct E as [[<- ->]|[_ E]].
    + eexists; split; [exact Hi|right; right; apply Go_notified].
    + destruct (notify_one_other _ _ _ _ Hn E) as (u & Eu & Hu); exists u; tauto.
  - stay Hi E. apply Go_out; auto.
  - destruct (smart_other _ _ _ _ Hn _ _ E) as (u & Eu & Hu); exists u; tauto.
  - exists t'; auto.
  - assert (exists u, nth_error ths j = Some u /\ (t' = u \/ t' = wake u)) as (u & Eu & Hu).
    { destruct (Nat.eqb _ _); [|exists t'; auto].
      unfold notify_all in E; rewrite nth_error_map in E.
      destruct (nth_error ths j) as [u|]; [|discriminate]; cbn in E; injection E as <-; exists u; auto. }
    destruct (smart_other _ _ _ _ Hn _ _ Eu) as (v & Ev & Hv). exists v; split; [exact Ev|].
    destruct v, Hv as [->| ->], Hu as [->| ->]; cbn; auto.
  - destruct Hr as (Hd & Hdel & a & b0 & H1 & H2 & ->); cbn [m_threads] in E.
    destruct (smart_other _ _ _ _ H2 _ _ E) as (u & Eu & Hu).
    destruct (smarts_other _ _ _ _ H1 _ _ Eu) as (v & Ev & Hv). exists v; split; [exact Ev|].
    destruct v, Hv as [->| ->], Hu as [->| ->]; cbn; auto.
  - stay Hi E. apply Go_call.
  - destruct Hi as [Hi|Hi]; stay Hi E; [apply Go_done|apply Go_end].
  - stay Hi E. apply Go_return; [reflexivity|cbn [m_deq]; lia].
  - apply nth_set_cases in E; destruct E as [[<- ->]|[_ E]].
    + exists TAsleep; auto.
    + exists t'; auto.
Qed.

Lemma block_status m m' j b : mstep m m' ->
  (nth_error (m_threads m') j = Some (TOpening b) -> nth_error (m_threads m) j <> Some (TOpening b) ->
     b = m_failed m /\ m_q m = S (m_q m') /\
     (nth_error (m_threads m) j = Some TEnter \/ nth_error (m_threads m) j = Some TWoken)) /\
  (nth_error (m_threads m') j = Some (TGot b) -> nth_error (m_threads m) j <> Some (TGot b) ->
     nth_error (m_threads m) j = Some (TOpenedOk b) /\ m_deq m' = S (m_deq m)) /\
  (nth_error (m_threads m') j = Some (TOpenedOk b) -> nth_error (m_threads m) j <> Some (TOpenedOk b) ->
     nth_error (m_threads m) j = Some (TOpening b)) /\
  (nth_error (m_threads m) j = Some TOpenFailed -> nth_error (m_threads m') j <> Some TOpenFailed ->
     (j < length (m_threads m'))%nat -> nth_error (m_threads m') j = Some TEnter /\ m_failed m' = true).
Proof.
  intros Hs. split; [|split; [|split]].
  - intros E N. destruct (step_goes m m' j _ Hs E) as (t & Et & [<-|[Hw|G]]); [contradiction| |].
    + destruct t; cbn in Hw; try discriminate Hw; congruence.
    + inversion G as [|? H1| |? H1 H2| | | | | | | | | |]; subst; try congruence. destruct H1 as [-> | ->]; auto.
  - intros E N. destruct (step_goes m m' j _ Hs E) as (t & Et & [<-|[Hw|G]]); [contradiction| |].
    + destruct t; cbn in Hw; try discriminate Hw; congruence.
    + inversion G; subst; auto.
  - intros E N. destruct (step_goes m m' j _ Hs E) as (t & Et & [<-|[Hw|G]]); [contradiction| |].
    + destruct t; cbn in Hw; try discriminate Hw; congruence.
    + inversion G; subst; auto.
  - intros E N L. destruct (nth_error (m_threads m') j) as [t'|] eqn:E'; [|apply nth_error_None in E'; lia].
    destruct (step_goes m m' j t' Hs E') as (t & Et & [<-|[Hw|G]]); rewrite E in Et; injection Et as <-.
    + congruence.
    + cbn in Hw; congruence.
    + inversion G; subst; auto.
      * destruct H as [H|H]; discriminate H.
      * destruct H as [H|H]; discriminate H.
      * destruct H as [H|H]; discriminate H.
      * destruct H as [[k H]|H]; discriminate H.
Qed.
