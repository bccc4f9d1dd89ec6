(** Who may work in a directory. *)
From Coq Require Import ZArith List Bool.
From Verif.Model Require Import LogLock.
Import ListNotations.
Open Scope Z_scope.

Definition at_pc (s : lkstate) (i : nat) (pc : lkpc) : Prop :=
  exists p, nth_error (lk_procs s) i = Some p /\ lk_pc p = pc.
(** Receiver [i] takes the directory for its own. *)
Definition works (s : lkstate) (i : nat) : Prop := at_pc s i KWork \/ at_pc s i KLoose.
(** It has file [f] open. *)
Definition has_open (s : lkstate) (i : nat) (f : Z) : Prop :=
  exists p, nth_error (lk_procs s) i = Some p /\ lk_fd p = Some f.

(** Receivers about to start, each with whether it is to remove its log and whether its
    transfer will succeed; the log, if there is one, is a file made before. *)
Definition lk_fresh (u : bool * bool) : lkproc :=
  {| lk_pc := KOpen; lk_fd := None; lk_locked := false; lk_invalid := false; lk_unlinks := fst u; lk_success := snd u |}.
Definition lk_start (log : bool) (bad : bool) (unlinks : list (bool * bool)) : lkstate :=
  {| lk_name := if log then Some 0 else None; lk_next := 1; lk_bad := if bad then [0] else [];
     lk_procs := map lk_fresh unlinks |}.

(** No call fails for reasons not modelled. *)
Definition fine (e : lkev) : Prop := match e with KStep _ ok => ok = true | KKill _ => True end.
(** Receivers that do not remove the log: it is kept, or the transfer fails. *)
Definition leaves (u : bool * bool) : Prop := fst u = false \/ snd u = false.
