(** What the coordination primitives promise, in terms of where threads are. *)
From Verif Require Export Model.ThreadsCtl.

Definition nobody {A} (t : A) (l : list A) : Prop := ~ In t l.
Definition at_most_one {A} (t : A) (l : list A) : Prop :=
  forall i j, nth_error l i = Some t -> nth_error l j = Some t -> i = j.

(** A registered thread that has not reached the barrier. *)
Definition still_expected (b : barrier) (i : nat) : Prop := nth_error (b_st b) i = Some BOut.
Definition released (b : barrier) (i : nat) : Prop := nth_error (b_st b) i = Some BPassed.
(** Woken: the thread runs as soon as it is scheduled, and needs nobody else. *)
Definition waiting (b : barrier) (i : nat) : Prop :=
  nth_error (b_st b) i = Some BAsleep \/ nth_error (b_st b) i = Some BWoken.

(** In the funnel, without an answer yet. *)
Definition undecided (t : fst_) : Prop :=
  t = FLoop \/ t = FSawProgress \/ t = FAsleep \/ t = FWoken \/ t = FWorking.
Inductive fsteps : funnel -> funnel -> Prop :=
| FS0 f : fsteps f f
| FSS f1 f2 f3 : fstep f1 f2 -> fsteps f2 f3 -> fsteps f1 f3.
