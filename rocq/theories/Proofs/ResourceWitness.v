(** Runs of the resource controller. *)
From Coq Require Import Lia.
From Verif Require Export Proofs.ResourceCallFacts Proofs.ResourceReplyFacts.
From Verif Require Import Proofs.SumFacts.
Import ListNotations.
Open Scope Z_scope.

Definition st (i : nat) : Resource.rev := EvStep i quiet.
Definition fail (i : nat) : Resource.rev := EvStep i {| rc_code := ERROR; rc_stale := [] |}.
Definition after (max nsmax : Z) (n : nat) (evs : list Resource.rev) : rsys :=
  match ry_run evs (ry_init (Two max max) (Two nsmax nsmax) n) with
  | Some s => s
  | None => ry_init (Two max max) (Two nsmax nsmax) n
  end.

(** Two namespaces, a creation and a release in flight. *)
Definition busy_run : list Resource.rev :=
  [EvCall 0 (CCreate Snd 1 7 0); st 0; st 0; EvCall 0 (CCreate Snd 2 7 0); st 0; st 0;
   EvCall 0 (CCreate Snd 2 8 0); st 0; EvCall 1 (CRelease Snd 1 (One 7)); st 1; st 1].
Definition quiet_run : list Resource.rev :=
  [EvCall 0 (CCreate Snd 1 7 0); st 0; st 0; EvCall 1 (CCreate Snd 2 7 0); st 1; st 1].

(** The namespace is taken away while a sender is being made in it. *)
Definition race_run : list Resource.rev :=
  [EvCall 0 (CCreate Snd 1 7 0); st 0; EvCall 1 (CDereg 1); st 1; st 1; st 1; st 1; st 0; st 1].
Lemma race_off : off 0 (after 1 5 2 race_run).
Proof.
  split; [vm_compute; lia|]. split; [vm_compute; tauto|]. intros t Ht. vm_compute in Ht.
  destruct Ht as [<-|[<-|[]]]; (split; [discriminate|exact I]).
Qed.
Lemma race_forever evs s : ry_run evs (after 1 5 2 race_run) = Some s -> Forall (within Snd 1) (ry_calls s) ->
  registered Snd s = 0 /\ in_flight Snd s = 0 /\ counter Snd s = 1.
Proof.
  intros H Hc.
  assert (R : ry_run (race_run ++ evs) (ry_init (Two 1 1) (Two 5 5) 2) = Some s).
  { rewrite ry_run_app. replace (ry_run race_run _) with (Some (after 1 5 2 race_run)) by (vm_compute; reflexivity). exact H. }
  destruct (off_forever 0 evs _ s race_off H) as ((O1 & O2 & _) & E).
  assert (St : 1 <= stranded Snd s).
  { unfold stranded, controllers. destruct (length (rs_heap (ry_share s))) as [|m] eqn:El; [lia|]. cbn [seq zsum].
    replace (is_registered s 0) with false.
    - unfold live_in at 1. rewrite E. match goal with |- 1 <= ?a + ?b => replace a with 1 by (vm_compute; reflexivity); assert (0 <= b) end; [|lia].
      apply zsum_nonneg. intros k Hk. destruct (is_registered s k); [lia|]. unfold live_in. destruct (nth_error _ k); [unfold zlen; lia|lia].
    - symmetry. unfold is_registered. destruct (existsb _ _) eqn:Ex; [|reflexivity]. apply existsb_exists in Ex.
      destruct Ex as ((x, v) & X1 & X2). cbn in X2. apply Nat.eqb_eq in X2. subst v. exfalso. apply O2. exact (in_map snd _ _ X1). }
  assert (Rg : 0 <= registered Snd s).
  { apply zsum_nonneg. intros k Hk. destruct (is_registered s k); [|lia]. unfold live_in. destruct (nth_error _ k); [unfold zlen; lia|lia]. }
  pose proof (flight_nonneg s Snd (SysInv_run _ _ _ _ _ R)) as Fl.
  pose proof (counter_eq _ _ _ _ _ Snd R) as Ce.
  destruct (limits_hold _ _ _ _ _ Snd 1 R) as (_ & Cl); [cbn; lia|exact Hc|]. lia.
Qed.

(** shutdown() while a sender is being made. *)
Definition shutdown_run : list Resource.rev :=
  [EvCall 0 (CCreate Snd 1 7 0); st 0; EvCall 1 CShutdown; st 1; st 1; st 1; st 1].

(** init() of the sender, of the receiver, fails. *)
Definition send_fail_run : list Resource.rev := [EvCall 0 (CSend 1 7 5 false); st 0; st 0; fail 0].
Definition recv_fail_run : list Resource.rev := [EvCall 0 (CRecvStart 1 7 5); st 0; st 0; fail 0].
(** A whole wdtSend; one refused for lack of quota while another runs; both refused twice. *)
Definition send_run : list Resource.rev := [EvCall 0 (CSend 1 7 5 false); st 0; st 0; st 0; fail 0; st 0; st 0; st 0].
Definition recv_refused_run : list Resource.rev :=
  [EvCall 0 (CRecvStart 1 7 5); st 0; st 0; st 0; st 0; EvCall 1 (CRecvStart 1 7 6); st 1; st 1; st 1].

(** A second wdtSend to the same destination replaces the first; when the first
    returns it releases the slot of the second. Then two more transfers are begun. *)
Definition replace_run : list Resource.rev :=
  [EvCall 0 (CSend 1 7 5 false); st 0; st 0; st 0;
   EvCall 1 (CSend 1 7 6 true); st 1; st 1; st 1; st 1; st 1; st 1; st 1; st 1; st 1;
   fail 0; st 0; st 0; st 0].
Definition overrun : list Resource.rev :=
  replace_run ++ [EvCall 2 (CSend 1 8 5 false); st 2; st 2; st 2; EvCall 3 (CSend 1 9 5 false); st 3; st 3; st 3].
Definition transferring (t : rthread) : bool := match t with RBusy _ (KSendRun _ _ _) OUser => true | _ => false end.
Ltac calls :=
  match goal with
  | |- context [ry_calls ?x] =>
      let l := eval vm_compute in (ry_calls x) in replace (ry_calls x) with l by (vm_compute; reflexivity)
  end; repeat constructor; cbn; auto; try discriminate.
(** Two senders; the stale ones are about to be released. *)
Definition stale_run : list Resource.rev :=
  [EvCall 0 (CCreate Snd 1 7 5); st 0; st 0; EvCall 0 (CCreate Snd 1 8 6); st 0; st 0;
   EvCall 0 (CRelease Snd 1 Stale); st 0].
