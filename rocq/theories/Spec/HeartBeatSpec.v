(** What heart beats should and should not do. *)
From Verif Require Export Model.HeartBeat.
Open Scope Z_scope.

(** The answers the receiver gives in a run. *)
Fixpoint answers (l : list hev) : list (list Z) :=
  match l with [] => [] | EAnswer b :: r => b :: answers r | _ :: r => answers r end.
(** An answer starts with a command, which is not a heart beat. *)
Definition is_answer (b : list Z) : Prop := exists x r, b = x :: r /\ x <> HEART_BEAT_CMD.
Definition no_abort (l : list hev) : Prop := forall b, ~ In (EAbort b) l.
(** The sender is still sending blocks. *)
Definition quiet (l : list hev) : Prop := ~ In EDone l /\ ~ In ECheck l.
Definition is_beat (x : Z) : Prop := x = HEART_BEAT_CMD.

(** [rel] holds between all neighbours of [l]. *)
Fixpoint neighbours (rel : Z -> Z -> Prop) (l : list Z) : Prop :=
  match l with
  | a :: (b :: _) as r => rel a b /\ neighbours rel r
  | _ => True
  end.
Definition ms (x : Z) : Z := x * 1000000.

(** The times at which readHeartBeats reads, over calls at [nows]. *)
Fixpoint read_times (read_timeout last : Z) (nows : list Z) : list Z :=
  match nows with
  | [] => []
  | n :: r => match read_beats true read_timeout last n 0 [] with
              | Ret (_, l', _) => if l' =? last then read_times read_timeout last r else n :: read_times read_timeout l' r
              | _ => []
              end
  end.
