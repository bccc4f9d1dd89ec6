(** C73: receivers that use the same directory, and its transfer log. *)
From Coq Require Import ZArith List Bool.
From Verif.Model Require Import LogLock.
From Verif.Spec Require Import LogLockSpec.
From Verif.Proofs Require Import LogLockFacts.
Import ListNotations.
Open Scope Z_scope.

(** Two receivers never work on the same log file at once, whatever happens. *)
Theorem C73_one : forall log bad us l s i j f, lk_run (lk_start log bad us) l = Some s ->
  at_pc s i KWork -> at_pc s j KWork -> has_open s i f -> has_open s j f -> i = j.
Proof. exact one_each. Qed.
Print Assumptions C73_one.

(** As long as no log is invalid and no receiver removes one, at most one receiver works in
    the directory, whatever calls fail and whoever is killed. *)
Theorem C73_exclusive : forall log us l s, Forall leaves us -> lk_run (lk_start log false us) l = Some s ->
  forall i j, works s i -> works s j -> i = j.
Proof. exact exclusive_all. Qed.
Print Assumptions C73_exclusive.

(** Under the same conditions, unless a call fails, no receiver ends its whole process. *)
Theorem C73_no_exit : forall log us l s i, Forall leaves us -> Forall fine l ->
  lk_run (lk_start log false us) l = Some s -> ~ at_pc s i KExit.
Proof. exact no_exit_all. Qed.
Print Assumptions C73_no_exit.

(** Removing the log (keep_transfer_log off) breaks it: the first receiver closes its log, the second
    takes it over, the first unlinks it, and the third makes a new one. *)
Theorem C73_removed_refuted : exists l s, Forall fine l /\
  lk_run (lk_start false false [(true, true); (true, true); (true, true)]) l = Some s /\
  works s 1 /\ works s 2 /\ lk_name s = Some 2.
Proof. exact two_work. Qed.
Print Assumptions C73_removed_refuted.

(** So does an invalid log: each receiver closes it and goes on without. *)
Theorem C73_invalid_refuted : exists l s, Forall fine l /\
  lk_run (lk_start true true [(false, true); (false, true)]) l = Some s /\ works s 0 /\ works s 1.
Proof. exact two_invalid. Qed.
Print Assumptions C73_invalid_refuted.

(** A receiver whose log was removed or replaced never closes it in order: it neither
    finishes nor returns an error, it can only exit the process or be killed. *)
Theorem C73_stale : forall log bad us l s i f l' s', lk_run (lk_start log bad us) l = Some s -> has_open s i f ->
  lk_name s <> Some f -> ~ at_pc s i KClose -> lk_run s l' = Some s' ->
  ~ at_pc s' i KDone /\ ~ at_pc s' i KError /\ ~ at_pc s' i KLoose /\ ~ at_pc s' i KRemove /\ ~ at_pc s' i KClose.
Proof. exact stale_all. Qed.
Print Assumptions C73_stale.

(** That a directory is in use should be an error of init(); it may end the process of the
    second receiver instead. *)
Theorem C73_error_refuted : exists l s, Forall fine l /\
  lk_run (lk_start true false [(true, true); (false, true)]) l = Some s /\ at_pc s 0 KDone /\ at_pc s 1 KExit.
Proof. exact exits_instead. Qed.
Print Assumptions C73_error_refuted.

(** A receiver that finds a good log nobody holds, or none, and is left alone has the log
    after at most five calls: locks of the dead do not remain. *)
Theorem C73_alone : forall log bad us l s i, lk_run (lk_start log bad us) l = Some s -> at_pc s i KOpen ->
  (forall f, lk_name s = Some f -> ~ In f (lk_bad s) /\
     (forall j p, nth_error (lk_procs s) j = Some p -> lk_fd p = Some f -> lk_locked p = false)) ->
  exists n s', (n <= 5)%nat /\ lk_run s (repeat (KStep i true) n) = Some s' /\ at_pc s' i KWork.
Proof. exact alone_all. Qed.
Print Assumptions C73_alone.

(** Two receivers start at once in an empty directory and both try to create the log; the
    second gets an error; the first is killed at work; a third goes on with the log. *)
Example C73_case : let l := [KStep 0 true; KStep 1 true; KStep 0 true; KStep 1 true; KStep 0 true; KStep 1 true; KStep 0 true;
    KStep 1 true; KStep 0 true; KStep 1 true; KStep 1 true; KKill 0; KStep 2 true; KStep 2 true; KStep 2 true] in
  exists s, lk_run (lk_start false false [(false, true); (false, true); (false, true)]) l = Some s /\
  map lk_pc (lk_procs s) = [KDead; KError; KWork] /\ lk_name s = Some 1 /\ Forall leaves [(false, true); (false, true); (false, true)].
Proof. eexists. split; [vm_compute; reflexivity|]. split; [reflexivity|]. split; [reflexivity|]. repeat constructor. Qed.
(** A log removed under the second receiver, which exits when it closes it. *)
Example C73_stale_case : exists s s',
  lk_run (lk_start true false [(true, true); (true, true)]) (map (fun i => KStep i true) [0; 0; 0; 0; 0; 0; 1; 1; 1; 0]%nat) = Some s /\
  has_open s 1 0 /\ at_pc s 1 KWork /\ lk_name s = None /\
  lk_run s [KStep 1 true; KStep 1 true] = Some s' /\ at_pc s' 1 KExit.
Proof.
  eexists. eexists. split; [vm_compute; reflexivity|]. split; [eexists; split; reflexivity|]. split; [eexists; split; reflexivity|].
  split; [reflexivity|]. split; [vm_compute; reflexivity|]. eexists; split; reflexivity.
Qed.
