(** Vocabulary for the claims about the queue monitor. *)
From Verif Require Import Model.QueueMonitor.

Definition asleep (t : tst) : bool := match t with TAsleep => true | _ => false end.
Definition woken (t : tst) : bool := match t with TWoken => true | _ => false end.
(** Inside getNextSource, waiting for an answer that needs no opening. *)
Definition asking (t : tst) : bool :=
  match t with TEnter | TAsleep | TWoken => true | _ => false end.
(** Has been handed a block (opening it, or returned it to its caller). *)
Definition holding (t : tst) : bool :=
  match t with TOpening _ | TOpenedOk _ | TOpenFailed | TGot _ => true | _ => false end.
(** Still to be executed notify_one calls of a thread returning blocks. *)
Definition to_notify (t : tst) : nat :=
  match t with TReturned k => k | TNotifying k => k | _ => 0%nat end.

Definition how_many (p : tst -> bool) (ths : list tst) : nat := length (filter p ths).
Definition total_to_notify (ths : list tst) : nat := list_sum (map to_notify ths).

(** Blocks in the queue, at a thread that opens one, or handed out and not returned. *)
Definition opening (t : tst) : bool :=
  match t with TOpening _ | TOpenedOk _ | TOpenFailed => true | _ => false end.
Definition accounted (m : mon) : nat := (m_q m + how_many opening (m_threads m) + m_deq m)%nat.
