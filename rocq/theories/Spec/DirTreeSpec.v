(** What it means that the directories and files asked for are made. *)
From Coq Require Import ZArith List Bool.
From Verif.Model Require Import DirTree.
Import ListNotations.
Open Scope Z_scope.

Definition starts_with (p q : path) : Prop := exists r, q = p ++ r.
Definition in_dirs (t : tree) (p : path) : Prop := p = [] \/ In p (tr_dirs t).
(** A directory and the name of a file in it. *)
Definition request := (path * Z)%type.
Definition target (r : request) : path := fst r ++ [snd r].

(** A tree: everything is in a directory, nothing is both a directory and a file, the root
    is not listed. *)
Definition sound_tree (t : tree) : Prop :=
  (forall p x, In (p ++ [x]) (tr_dirs t) -> in_dirs t p) /\
  (forall p x, In (p ++ [x]) (tr_files t) -> in_dirs t p) /\
  (forall p, In p (tr_dirs t) -> ~ In p (tr_files t)) /\
  ~ In [] (tr_dirs t) /\ ~ In [] (tr_files t).

(** No file where a directory is wanted, and the other way round. *)
Definition no_clash (excl : bool) (t : tree) (rs : list request) : Prop :=
  (forall r p, In r rs -> starts_with p (fst r) -> ~ In p (tr_files t) /\ (forall q, In q rs -> target q <> p)) /\
  (forall r, In r rs -> ~ In (target r) (tr_dirs t)) /\
  (excl = true -> NoDup (map target rs) /\ (forall r, In r rs -> ~ In (target r) (tr_files t))).

Definition dstart (t : tree) (known : list path) (rs : list request) : dsys :=
  {| ds_tree := t; ds_known := known; ds_threads := map (fun r : request => creator_new (fst r) (snd r)) rs |}.
Definition thread_at (s : dsys) (i : nat) (pc : fpc) : Prop :=
  exists c, nth_error (ds_threads s) i = Some c /\ cr_pc c = pc.
(** No thread can go on. *)
Definition at_rest (excl : bool) (s : dsys) : Prop := forall i, dstep excl s (DStep i) = None.
Definition steps_of (r : request) : nat := (7 * length (fst r) + 2)%nat.
(** The steps threads take in a run. *)
Definition steps (l : list dev) : nat := length (filter (fun e => match e with DStep _ => true | _ => false end) l).
