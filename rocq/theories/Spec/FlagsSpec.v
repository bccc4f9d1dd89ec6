(** What flags and signals should mean. *)
From Verif Require Export Model.Flags Spec.CmdLineSpec.
Open Scope Z_scope.

(** The flag of that name was given on the command line. *)
Definition given (fs : list flag) (name : list Z) : Prop :=
  exists f, In f fs /\ fl_is_default f = false /\ fl_name f = name.
Definition has_number (fs : list flag) (name : list Z) (v : Z) : Prop :=
  exists f, In f fs /\ fl_name f = name /\ fl_number f = v.
Definition has_text (fs : list flag) (name t : list Z) : Prop :=
  exists f, In f fs /\ fl_name f = name /\ fl_text f = t.
Definition unique (fs : list flag) : Prop := NoDup (map fl_name fs).
(** wdt's own flag for an option: with "wdt_" in front of it in programs that are not
    wdt's. *)
Definition own_flag (standalone : bool) (n : list Z) : list Z :=
  if standalone then n else [119; 100; 116; 95] ++ n.
Definition is_bool (n : oname) : bool :=
  match n with NumPorts | BlockSize | StartPort => false | _ => true end.
(** All flags are there; those of boolean options are 0 or 1. *)
Definition all_flags (standalone : bool) (fs : list flag) (v : oname -> Z) : Prop :=
  forall n, has_number fs (own_flag standalone (option_name n)) (v n) /\ (is_bool n = true -> v n = 0 \/ v n = 1).

(** Events of the signal. *)
Definition subscribers (l : list sev) : nat := length (filter (fun e => match e with Subscribe => true | _ => false end) l).
Definition notices (l : list sev) : Z := Z.of_nat (length (filter (fun e => match e with Notify => true | _ => false end) l)).
(** [e], after [h], is when subscriber [i] last looked or was made. *)
Definition looks (h : list sev) (e : sev) (i : nat) : Prop :=
  e = Poll i /\ (i < subscribers h)%nat \/ e = Subscribe /\ i = subscribers h.
Definition answer (h : list sev) : option bool := last (snd (srun signals_start h)) None.
