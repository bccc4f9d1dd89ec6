(** How a Sender or Receiver object is meant to be used, and what its callers may rely
    on. *)
From Verif Require Export Model.Life.

(** finish() is called only after a start() returned OK; start() of a Receiver is called
    once. *)
Definition polite (cfg : lcfg) (l : life) (m : move) : Prop :=
  match m with
  | MFinish _ => exists c, In (c, RStart OK) (lf_log l)
  | MStart _ => lc_recv cfg = true -> lf_log l = [] /\ forall c p, nth_error (lf_pcs l) c = Some p -> p = CIdle
  | _ => True
  end.
(** The states an object can get into; [d]: with polite callers only. *)
Inductive reach (cfg : lcfg) (callers : nat) (d : bool) : life -> Prop :=
| reach_new : reach cfg callers d (lf_new cfg callers)
| reach_step l m l' : reach cfg callers d l -> (d = true -> polite cfg l m) -> lmove cfg l m = Some (Ret l') ->
    reach cfg callers d l'.

Definition is_call (m : move) : bool := match m with MStart _ | MFinish _ => true | _ => false end.
Definition stage (s : status) : nat :=
  match s with NotStarted => 0 | Ongoing => 1 | Finished => 2 | ThreadsJoined => 3 end.
(** How often calls gave this. *)
Definition times (f : res -> bool) (log : list (nat * res)) : nat := length (filter (fun e => f (snd e)) log).
Definition is_ok (r : res) : bool := match r with RStart e => e =? OK | _ => false end.
Definition is_first (r : res) : bool := match r with RFirst => true | _ => false end.
Definition is_report (r : res) : bool := match r with RFirst | RAgain => true | _ => false end.
Definition is_not (r : res) : bool := match r with RNot => true | _ => false end.
(** No thread made by the object is left. *)
Definition all_joined (cfg : lcfg) (l : life) : Prop :=
  length (lf_work l) = lc_n cfg /\ Forall (eq TJoined) (lf_work l) /\
  lf_dir l = (if lc_recv cfg then TNone else TJoined) /\ lf_prog l = (if lc_prog cfg then TJoined else TNone).

(** In finish() past its lock. *)
Definition inside (p : pc) : bool :=
  match p with FRead | FWork _ | FDir | FSet | FProg => true | _ => false end.

(** The states of Receiver::runForever. *)
Inductive vreach (n : nat) : forever -> Prop :=
| vreach_new : vreach n (fv_new n)
| vreach_step v m v' : vreach n v -> vmove v m = Some (Ret v') -> vreach n v'.
