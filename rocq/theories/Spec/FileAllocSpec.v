(** What allocation promises about one session. *)
From Verif Require Export Model.FileAlloc.

(** A thread that has been, or is about to be, let through to open file [s] that
    it did not allocate, or that got the allocated descriptor. *)
Definition opens (f : falloc) (i : nat) (s : Z) : Prop :=
  nth_error (fa_st f) i = Some (CMayOpen s) \/ nth_error (fa_st f) i = Some (CDone s true).
Definition reports_failure (f : falloc) (i : nat) (s : Z) : Prop :=
  nth_error (fa_st f) i = Some (CDone s false).
Definition allocating (f : falloc) (i : nat) (s : Z) : Prop := nth_error (fa_st f) i = Some (CAlloc s).
(** Finished allocating, has not yet told the others. *)
Definition announcing (f : falloc) (i : nat) (s : Z) : Prop :=
  exists ok, nth_error (fa_st f) i = Some (CSet s ok).
Definition sleeps_for (f : falloc) (i : nat) (s : Z) : Prop :=
  exists t, nth_error (fa_st f) i = Some (CAsleep s t).
(** Inside openForBlocks. *)
Definition inside (t : cst) : Prop := t <> CIdle /\ forall s ok, t <> CDone s ok.
