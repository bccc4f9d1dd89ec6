(** A scheduler for concrete runs, with the proof that what it does are steps. *)
From Coq Require Import Lia.
From Verif Require Import Spec.NegotiateSpec.
Open Scope Z_scope.

Inductive act :=
| Go (i : nat)                  (* the next step of thread [i] by itself *)
| Break (i : nat)               (* it leaves the loop *)
| Lost (i : nat)                (* something had been acknowledged *)
| Back (i : nat) (x : nstate)   (* the function of its state returns *)
| Offer (i : nat) (v : Z)       (* its peer says VERSION_MISMATCH and offers [v] *)
| Peer (i : nat) (c : Z)        (* its peer sends another abort code *)
| User (c : Z).                 (* the application aborts *)

Definition go (cs : bool) (s : nsys) (i : nat) (t : nthread) : option nsys :=
  match n_pc t with
  | PTop NEnd => Some (g_set s i (at_pc t PDone))
  | PTop x => if g_abort s =? VERSION_MISMATCH then Some (g_set s i (at_pc_aborted t PEnter true))
              else if g_abort s =? OK then Some (g_set s i (at_pc t (match x with NMismatch => PEnter | _ => PBusy end)))
              else Some (g_set s i (at_pc_aborted t PDone true))
  | PBusy => None
  | PEnter => if n_abort t then match g_status s with
                                | VWait => Some (g_set s i (at_pc t PHit))
                                | VResolved => Some (g_set s i (at_pc t (PTop NEnd)))
                                | VFailed => None
                                end
              else None
  | PHit => match barrier_execute (g_bar s) i with Ret b => Some (g_set_bar (g_set s i (at_pc t PBarrier)) b) | _ => None end
  | PBarrier => match nth_error (b_st (g_bar s)) i with
                | Some BWoken => Some (g_set_bar s (barrier_woken (g_bar s) i))
                | Some BPassed => Some (g_set_fun (g_set s i (at_pc t PFunnel)) (f_set (g_fun s) i FLoop))
                | _ => None
                end
  | PFunnel => match nth_error (f_st (g_fun s)) i with
               | Some FLoop => Some (g_set_fun (g_set s i (at_pc t (match f_status (g_fun s) with FStart => PWork WBegin | _ => PFunnel end)))
                                                (funnel_getStatus (g_fun s) i))
               | Some FSawProgress => Some (g_set_fun s (funnel_wait (g_fun s) i))
               | Some FWoken => Some (g_set_fun s (f_set (g_fun s) i FLoop))
               | Some FSawEnd => match g_status s with
                                 | VWait => None
                                 | VFailed => Some (g_set s i (at_pc t (PTop NEnd)))
                                 | VResolved => Some (g_set s i {| n_pc := PTop NOther; n_ver := g_version s; n_footer := n_footer t;
                                                                  n_neg := n_neg t; n_abort := n_abort t |})
                                 end
               | _ => None
               end
  | PWork WBegin => Some (g_set_status (g_set s i (at_pc t (PWork WCollect))) VFailed)
  | PWork WCollect => match pick 0 (map n_neg (g_thr s)) with
                      | None => Some (g_set s i (at_pc t (PWork (WNotify NEnd))))
                      | Some v => if 0 <? v then Some (g_set s i (at_pc t (PWork (WVersion v)))) else None
                      end
  | PWork (WVersion v) => Some (g_set_version (g_set s i {| n_pc := PWork WResolve; n_ver := v; n_footer := footer_for cs v;
                                                            n_neg := n_neg t; n_abort := n_abort t |}) v)
  | PWork WResolve => Some (g_set_status (g_set s i (at_pc t (PWork WClear))) VResolved)
  | PWork WClear => Some (g_set_abort (g_set s i (at_pc t (PWork (WNotify NOther)))) (do_abort_op (g_abort s) ClearAbort))
  | PWork (WNotify x) => Some (g_set_fun (g_set s i (at_pc t (PTop x))) (funnel_success (g_fun s) i))
  | PDone => match barrier_deregister (g_bar s) i with Ret b => Some (g_set_bar (g_set s i (at_pc t PGone)) b) | _ => None end
  | PGone => None
  end.
Definition fair (v offer : Z) : bool := (10 <=? offer) && (offer <=? v).
Definition busy (t : nthread) : bool := match n_pc t with PBusy => true | _ => false end.
Definition perform (cs hostile : bool) (s : nsys) (a : act) : option nsys :=
  match a with
  | Go i => match nth_error (g_thr s) i with Some t => go cs s i t | None => None end
  | Break i => match nth_error (g_thr s) i with
               | Some t => match n_pc t with PTop NOther => Some (g_set s i (at_pc_aborted t PDone true)) | _ => None end
               | None => None
               end
  | Lost i => match nth_error (g_thr s) i with
              | Some t => match n_pc t with PWork WCollect => Some (g_set s i (at_pc t (PWork (WNotify NEnd)))) | _ => None end
              | None => None
              end
  | Back i x => match nth_error (g_thr s) i, x with
                | Some t, (NOther | NEnd) => if busy t then Some (g_set s i (at_pc_aborted t (PTop x) (n_abort t))) else None
                | _, _ => None
                end
  | Offer i v => match nth_error (g_thr s) i with
                 | Some t => if busy t && (hostile || fair (n_ver t) v)
                             then Some (g_add_offer (g_set_abort (g_set s i (abort_cmd t v VERSION_MISMATCH))
                                                                 (do_abort_op (g_abort s) (Abort VERSION_MISMATCH))) v)
                             else None
                 | None => None
                 end
  | Peer i c => match nth_error (g_thr s) i with
                | Some t => if busy t && negb (c =? VERSION_MISMATCH)
                            then Some (g_set_abort (g_set s i (abort_cmd t 0 c)) (do_abort_op (g_abort s) (Abort c))) else None
                | None => None
                end
  | User c => if c =? VERSION_MISMATCH then None else Some (g_set_abort s (do_abort_op (g_abort s) (Abort c)))
  end.
Fixpoint drive (cs hostile : bool) (s : nsys) (l : list act) : option nsys :=
  match l with
  | [] => Some s
  | a :: r => match perform cs hostile s a with Some s' => drive cs hostile s' r | None => None end
  end.

Definition peer (hostile : bool) : Z -> Z -> Prop := if hostile then anybody else real_receiver.
Lemma go_step cs s i t s' : nth_error (g_thr s) i = Some t -> go cs s i t = Some s' -> nint cs s (Some s').
Proof.
  intros H. unfold go. destruct (n_pc t) as [x| | | | | |k| |] eqn:P.
  - assert (X : x <> NEnd -> (if g_abort s =? VERSION_MISMATCH then Some (g_set s i (at_pc_aborted t PEnter true))
              else if g_abort s =? OK then Some (g_set s i (at_pc t (match x with NMismatch => PEnter | _ => PBusy end)))
              else Some (g_set s i (at_pc_aborted t PDone true))) = Some s' -> nint cs s (Some s')).
    { intros N E. destruct (Z.eqb_spec (g_abort s) VERSION_MISMATCH) as [A|A]; [injection E as <-; eapply N_mismatch; eauto|].
      destruct (Z.eqb_spec (g_abort s) OK) as [B|B]; injection E as <-; [eapply N_run; eauto|eapply N_break; eauto]. }
    destruct x; [apply X; discriminate|apply X; discriminate|]. intros E; injection E as <-. eapply N_leave; eauto.
  - discriminate.
  - destruct (n_abort t) eqn:A; [|discriminate]. destruct (g_status s) eqn:S; [| |discriminate]; intros E; injection E as <-;
      [eapply N_wait; eauto|eapply N_resolved; eauto].
  - destruct (barrier_execute _ _) eqn:B; try discriminate. intros E; injection E as <-. eapply N_hit; eauto.
  - destruct (nth_error (b_st (g_bar s)) i) as [[| | | |]|] eqn:B; try discriminate; intros E; injection E as <-; [eapply N_woken; eauto|eapply N_passed; eauto].
  - destruct (nth_error (f_st (g_fun s)) i) as [[| | | | | | | |]|] eqn:B; try discriminate.
    + intros E; injection E as <-. eapply N_get; eauto.
    + intros E; injection E as <-. eapply N_fwait; eauto.
    + intros E; injection E as <-. eapply N_fwoken; eauto.
    + destruct (g_status s) eqn:S; try discriminate; intros E; injection E as <-; [eapply N_end_resolved; eauto|eapply N_end_failed; eauto].
  - destruct k.
    + intros E; injection E as <-. eapply N_begin; eauto.
    + destruct (pick 0 (map n_neg (g_thr s))) as [v|] eqn:K; [|intros E; injection E as <-; eapply N_differ; eauto].
      destruct (Z.ltb_spec 0 v); [|discriminate]. intros E; injection E as <-. eapply N_agree; eauto.
    + intros E; injection E as <-. eapply N_version; eauto.
    + intros E; injection E as <-. eapply N_resolve; eauto.
    + intros E; injection E as <-. eapply N_clear; eauto.
    + intros E; injection E as <-. eapply N_notify; eauto.
  - destruct (barrier_deregister _ _) eqn:B; try discriminate. intros E; injection E as <-. eapply N_gone; eauto.
  - discriminate.
Qed.
Lemma perform_step cs hostile s a s' : perform cs hostile s a = Some s' -> nstep cs (peer hostile) s (Some s').
Proof.
  destruct a as [i|i|i|i x|i v|i c|c]; cbn [perform].
  - destruct (nth_error (g_thr s) i) as [t|] eqn:H; [|discriminate]. intros E. left. eapply go_step; eauto.
  - destruct (nth_error (g_thr s) i) as [t|] eqn:H; [|discriminate]. destruct (n_pc t) as [[| |]| | | | | | | |] eqn:P; try discriminate.
    intros E; injection E as <-. left. eapply N_break; eauto. discriminate.
  - destruct (nth_error (g_thr s) i) as [t|] eqn:H; [|discriminate]. destruct (n_pc t) as [| | | | | |[| | | | |]| |] eqn:P; try discriminate.
    intros E; injection E as <-. left. eapply N_acked; eauto.
  - destruct (nth_error (g_thr s) i) as [t|] eqn:H; [|discriminate]. unfold busy. destruct x; try discriminate;
      destruct (n_pc t) eqn:P; try discriminate; intros E; injection E as <-; right; eexists; (split; [reflexivity|]); eapply (X_return _ _ _ _ _ (n_abort t)); eauto; discriminate.
  - destruct (nth_error (g_thr s) i) as [t|] eqn:H; [|discriminate]. unfold busy. destruct (n_pc t) eqn:P; try discriminate. cbn [andb].
    destruct (hostile || fair (n_ver t) v) eqn:F; [|discriminate]. intros E; injection E as <-. right. eexists. split; [reflexivity|]. eapply X_abort; eauto.
    destruct hostile; cbn; [exact I|]. cbn in F. unfold fair in F. apply andb_prop in F. destruct F as [F1 F2].
    apply Z.leb_le in F1. apply Z.leb_le in F2. exists v. lia.
  - destruct (nth_error (g_thr s) i) as [t|] eqn:H; [|discriminate]. unfold busy. destruct (n_pc t) eqn:P; try discriminate. cbn [andb].
    destruct (Z.eqb_spec c VERSION_MISMATCH) as [C|C]; [discriminate|]. intros E; injection E as <-. right. eexists. split; [reflexivity|]. eapply X_abort_other; eauto.
  - destruct (Z.eqb_spec c VERSION_MISMATCH) as [C|C]; [discriminate|]. intros E; injection E as <-. right. eexists. split; [reflexivity|]. now apply X_user.
Qed.
Lemma drive_reach cs hostile n v l s s' : nreach cs (peer hostile) n v s -> drive cs hostile s l = Some s' -> nreach cs (peer hostile) n v s'.
Proof.
  revert s. induction l as [|a l IH]; cbn; intros s R E; [now injection E as <-|].
  destruct (perform cs hostile s a) as [s1|] eqn:P; [|discriminate]. apply (IH s1); [|exact E]. eapply NRS; [exact R|]. exact (perform_step _ _ _ _ _ P).
Qed.
Lemma drive_steps cs hostile l s s' : drive cs hostile s l = Some s' -> nsteps cs (peer hostile) s s'.
Proof.
  revert s. induction l as [|a l IH]; cbn; intros s E; [injection E as <-; constructor|].
  destruct (perform cs hostile s a) as [s1|] eqn:P; [|discriminate]. eapply NStS; [apply (perform_step _ _ _ _ _ P)|auto].
Qed.

(** Two threads at version 12; the receiver runs version 11. *)
Definition init12 : nsys := nsys_init true 2 12.
Definition to_work : list act :=
  [Go 0; Go 1; Offer 0 11; Back 1 NOther; Go 0; Go 1; Go 0; Go 1; Go 0; Go 1; Go 1; Go 0; Go 0; Go 0; Go 0].
Definition to_end : list act := to_work ++ [Go 0; Go 0; Go 0; Go 0; Go 0].
Definition to_talk : list act := to_end ++ [Go 1; Go 1; Go 0; Go 1].
Definition reached (cs hostile : bool) (s : nsys) (l : list act) : nsys := match drive cs hostile s l with Some s' => s' | None => s end.
Definition worked : nsys := reached true false init12 to_work.
Definition ended : nsys := reached true false init12 to_end.
Definition talked : nsys := reached true false init12 to_talk.
Lemma init_reach cs hon n v : nreach cs hon n v (nsys_init cs n v).
Proof. constructor. Qed.
Lemma worked_reach : nreach true real_receiver 2 12 worked.
Proof. apply (drive_reach true false 2 12 to_work init12); [apply init_reach|vm_compute; reflexivity]. Qed.
Lemma ended_reach : nreach true real_receiver 2 12 ended.
Proof. apply (drive_reach true false 2 12 to_end init12); [apply init_reach|vm_compute; reflexivity]. Qed.
Lemma talked_reach : nreach true real_receiver 2 12 talked.
Proof. apply (drive_reach true false 2 12 to_talk init12); [apply init_reach|vm_compute; reflexivity]. Qed.
Lemma ended_talked : nsteps true real_receiver ended talked.
Proof. apply (drive_steps true false [Go 1; Go 1; Go 0; Go 1] ended talked). vm_compute. reflexivity. Qed.
(** The step that changes the version. *)
Definition before : nsys := reached true false worked [Go 0].
Definition after : nsys := reached true false worked [Go 0; Go 0].
Lemma before_reach : nreach true real_receiver 2 12 before.
Proof. apply (drive_reach true false 2 12 [Go 0] worked); [apply worked_reach|vm_compute; reflexivity]. Qed.
Lemma before_after : nstep true real_receiver before (Some after).
Proof. apply (perform_step true false before (Go 0)). vm_compute. reflexivity. Qed.
(** The step that ends it. *)
Definition last : nsys := reached true false worked [Go 0; Go 0; Go 0; Go 0].
Lemma last_reach : nreach true real_receiver 2 12 last.
Proof. apply (drive_reach true false 2 12 [Go 0; Go 0; Go 0; Go 0] worked); [apply worked_reach|vm_compute; reflexivity]. Qed.
Lemma last_ended : nstep true real_receiver last (Some ended).
Proof. apply (perform_step true false last (Go 0)). vm_compute. reflexivity. Qed.

(** The two peers offer different versions. *)
Definition to_fail : list act :=
  [Go 0; Go 1; Offer 0 11; Offer 1 10; Go 0; Go 1; Go 0; Go 1; Go 0; Go 1; Go 1; Go 0; Go 0; Go 0; Go 0; Go 0; Go 0].
Definition failing : nsys := reached true false init12 to_fail.
Lemma failing_reach : nreach true real_receiver 2 12 failing.
Proof. apply (drive_reach true false 2 12 to_fail init12); [apply init_reach|vm_compute; reflexivity]. Qed.

(** A peer offers version 5 to one of two threads. *)
Definition to_crash : list act := [Go 0; Go 1; Offer 0 5; Back 1 NOther; Go 1; Go 1; Go 1; Go 0; Go 0; Go 1; Go 1; Go 1; Go 1].
Definition crashing : nsys := reached true true init12 to_crash.
Lemma crashing_reach : nreach true anybody 2 12 crashing.
Proof. apply (drive_reach true true 2 12 to_crash init12); [apply init_reach|vm_compute; reflexivity]. Qed.
Lemma crashing_crash : nint true crashing None.
Proof.
  eapply (N_none true crashing 1%nat _ 0); [vm_compute; reflexivity|vm_compute; reflexivity|vm_compute; reflexivity|lia].
Qed.
(** A peer offers version 0 to the only thread. *)
Definition init1 : nsys := nsys_init true 1 12.
Definition to_zero : list act := [Go 0; Offer 0 0; Go 0; Go 0; Go 0; Go 0; Go 0; Go 0].
Definition zero : nsys := reached true true init1 to_zero.
Lemma zero_reach : nreach true anybody 1 12 zero.
Proof. apply (drive_reach true true 1 12 to_zero init1); [apply init_reach|vm_compute; reflexivity]. Qed.
Lemma zero_crash : nint true zero None.
Proof.
  eapply (N_none true zero 0%nat _ 0); [vm_compute; reflexivity|vm_compute; reflexivity|vm_compute; reflexivity|lia].
Qed.

(** Thread 0 waits at the barrier for thread 1, which is talking. *)
Definition to_hold : list act := [Go 0; Go 1; Offer 0 11; Go 0; Go 0; Go 0].
Definition holding : nsys := reached true false init12 to_hold.
Lemma holding_reach : nreach true real_receiver 2 12 holding.
Proof. apply (drive_reach true false 2 12 to_hold init12); [apply init_reach|vm_compute; reflexivity]. Qed.
Lemma holding_rest : at_rest true holding.
Proof.
  intros r S.
  assert (X : forall i t, nth_error (g_thr holding) i = Some t -> (i = 0%nat /\ n_pc t = PBarrier) \/ (i = 1%nat /\ n_pc t = PBusy)).
  { intros i t H. vm_compute in H. destruct i as [|[|i]]; [left|right|destruct i; discriminate H]; injection H as <-; auto. }
  remember holding as s eqn:E.
  destruct S as [s i t H P|s i t b H P|s i t H P|s i t x H P|s i t x H P|s i t x H P|s i t H P|s i t H P|s i t H P|s i t H P|s i t b H P|s i t H P
    |s i t H P B|s i t H P B|s i t H P|s i t H P|s i t H P|s i t H P|s i t H P|s i t H P|s i t H P|s i t H P|s i t H P|s i t v H P|s i t v H P|s i t v H P|s i t H P|s i t H P|s i t x H P];
    destruct (X i t H) as [[-> Q]|[-> Q]]; rewrite P in Q; try discriminate Q; subst s; vm_compute in B; discriminate B.
Qed.
(** A run of the threads by themselves. *)
Lemma work_run : nrun true 5 worked ended.
Proof.
  assert (X : forall s s', go true s 0 (nth 0 (g_thr s) {| n_pc := PGone; n_ver := 0; n_footer := false; n_neg := 0; n_abort := false |}) = Some s' ->
     (0 < List.length (g_thr s))%nat -> nint true s (Some s')).
  { intros s s' E L. eapply go_step; [|exact E]. apply nth_error_nth'. exact L. }
  do 5 (eapply NRunS; [apply X; [vm_compute; reflexivity|vm_compute; repeat constructor]|]).
  match goal with |- nrun _ _ ?s _ => replace s with ended by (vm_compute; reflexivity) end. constructor.
Qed.
Definition second : nthread := {| n_pc := PBusy; n_ver := 11; n_footer := true; n_neg := -1; n_abort := true |}.
Lemma talked_second : nth_error (g_thr talked) 1 = Some second.
Proof. vm_compute. reflexivity. Qed.
Lemma footer_wrong : exists s t, nreach true real_receiver 2 12 s /\ In t (g_thr s) /\ talking t /\
  n_ver t = 11 /\ footer_for true (n_ver t) = false /\ n_footer t = true.
Proof.
  exists talked, second. split; [exact talked_reach|]. split; [eapply nth_error_In; exact talked_second|]. repeat split.
Qed.
