(** What the threads of a sender promise when versions differ. *)
From Verif Require Export Model.Negotiate.
Open Scope Z_scope.

(** A thread that may exchange data with its receiver. *)
Definition talking (t : nthread) : Prop := n_pc t = PBusy.
Definition gone (t : nthread) : Prop := n_pc t = PGone.
(** A thread that has got an answer it can use from its receiver. *)
Definition offered (t : nthread) (v : Z) : Prop := n_neg t = v /\ 0 < v.

(** What a receiver that runs version [r] answers to a sender that runs version [v],
    ReceiverThread.cpp:300-320: its own version or the sender's, whichever is smaller. *)
Definition real_receiver (v offer : Z) : Prop := exists r, 10 <= r /\ 10 <= v /\ offer = Z.min r v.
Definition anybody (v offer : Z) : Prop := True.

(** The work of the funnel is done. *)
Definition settled (s : nsys) : Prop := f_status (g_fun s) = FEnd.

Inductive nsteps (checksum : bool) (honest : Z -> Z -> Prop) : nsys -> nsys -> Prop :=
| NSt0 s : nsteps checksum honest s s
| NStS s1 s2 s3 : nstep checksum honest s1 (Some s2) -> nsteps checksum honest s2 s3 -> nsteps checksum honest s1 s3.

(** Nothing more happens without help from outside. *)
Definition at_rest (checksum : bool) (s : nsys) : Prop := forall r, ~ nint checksum s r.
(** Waiting at the barrier. *)
Definition held (s : nsys) (i : nat) : Prop := nth_error (b_st (g_bar s)) i = Some BAsleep.
