(** What it means to stay inside the receive buffer. *)
From Verif Require Export Model.RecvConn.

(** The states between commands: [c2] is reached from [c] by commands after which
    the thread reads the next one. *)
Inductive commands (p : rparams) (c : rconn) : rconn -> Prop :=
| co_none : commands p c c
| co_more c1 c2 fe : commands p c c1 -> do_cmd p fe c1 = Ret (c2, GoRead) -> commands p c c2.
(** Parsing position plus unread bytes inside a buffer of [B] bytes. *)
Definition in_buffer (B : Z) (c : rconn) : Prop :=
  zlen (rc_buf c) = B /\ 0 <= rc_off c /\ rc_off c + rc_num c <= B.
