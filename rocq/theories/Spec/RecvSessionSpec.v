(** What the ports of a receiver should be told about failed ports, read off
    what can be seen from outside. *)
From Verif Require Export Model.RecvSession.

(** The checkpoints of the ports that failed in the current session, in order. *)
Definition added_step (a : list (nat * checkpoint)) (o : rout) : list (nat * checkpoint) :=
  match o with
  | OSession => []
  | OAdded i c => a ++ [(i, c)]
  | _ => a
  end.
Definition added (outs : list rout) : list (nat * checkpoint) := fold_left added_step outs [].

(** What the sender on port [i] is known to have heard: what was written before
    a command it sent later on the same connection; and what was written on the
    present connection since its last command. *)
Definition ledger_step (i : nat) (l : list checkpoint * list checkpoint) (o : rout)
  : list checkpoint * list checkpoint :=
  match o with
  | OSession => ([], [])
  | OTold j cs => if Nat.eqb i j then (fst l, cs) else l
  | OCommand j => if Nat.eqb i j then (fst l ++ snd l, []) else l
  | OAccepted j => if Nat.eqb i j then (fst l, []) else l
  | _ => l
  end.
Definition ledger (i : nat) (outs : list rout) : list checkpoint * list checkpoint :=
  fold_left (ledger_step i) outs ([], []).
Definition confirmed (i : nat) (outs : list rout) : list checkpoint := fst (ledger i outs).

(** Every session that ended with failed ports had at least one connection. *)
Definition served_step (st : bool * bool * bool) (o : rout) : bool * bool * bool :=
  let '(conn, failed, ok) := st in
  match o with
  | OSession => (false, false, ok && (conn || negb failed))
  | OAccepted _ => (true, failed, ok)
  | OAdded _ _ => (conn, true, ok)
  | _ => st
  end.
Definition served (outs : list rout) : Prop :=
  snd (fold_left served_step outs (false, false, true)) = true.

(** Port [i] was told in the current session that the transfer ends. *)
Definition ending_step (i : nat) (b : bool) (o : rout) : bool :=
  match o with
  | OSession => false
  | OEnding j => b || Nat.eqb i j
  | _ => b
  end.
Definition ending (i : nat) (outs : list rout) : bool := fold_left (ending_step i) outs false.

(** No thread left without going through FINISH_WITH_ERROR: no abort and no
    socket error after which a thread does not accept again. *)
Definition orderly (l : list revent) : Prop :=
  ~ In EAbort l /\ forall i e, ~ In (EThread i (INonRetryable e)) l.

Definition waiting_ph (p : rphase) : bool :=
  match p with PCheck | PSleep | PSendWait => true | _ => false end.
(** Thread [u] has read a DONE command and waits, without an error. *)
Definition waits (u : rthread) : Prop :=
  rt_st u = RWaiting /\ waiting_ph (rt_ph u) = true /\ rt_err u = OK.
