(** What a path means. There are no symbolic links below the destination directory
    (the receiver makes none). *)
From Verif Require Export Model.PathOps.
Open Scope Z_scope.

(** A C string ends at the first zero. *)
Fixpoint cstr (s : list Z) : list Z := match s with [] => [] | c :: r => if c =? 0 then [] else c :: cstr r end.
(** The components between slashes. *)
Fixpoint components (s : list Z) : list (list Z) :=
  match s with
  | [] => [[]]
  | c :: r => if c =? SLASH then [] :: components r
              else match components r with x :: l => (c :: x) :: l | [] => [[c]] end
  end.
Definition DOT := 46.
Definition stay (c : list Z) : Prop := c = [] \/ c = [DOT].
Definition up (c : list Z) : Prop := c = [DOT; DOT].
(** Where one gets from directory [d] (innermost name first). *)
Definition enter (d : list (list Z)) (c : list Z) : list (list Z) :=
  match c with
  | [] => d
  | [46] => d
  | [46; 46] => tl d
  | _ => c :: d
  end.
Definition walk (d : list (list Z)) (cs : list (list Z)) : list (list Z) := fold_left enter cs d.
Definition resolve (cwd : list (list Z)) (path : list Z) : list (list Z) :=
  walk (if first_is SLASH path then [] else cwd) (components (cstr path)).

(** The directory itself or below; strictly below. *)
Definition at_or_below (dir p : list (list Z)) : Prop := exists q, p = q ++ dir.
Definition strictly_below (dir p : list (list Z)) : Prop := exists q, q <> [] /\ p = q ++ dir.
Definition call_path (c : fcall) : list Z := match c with FMkdir p | FOpen p _ _ _ | FUnlink p => p end.
Definition on_file (c : fcall) : bool := match c with FMkdir _ => false | _ => true end.

(** A relative name that never climbs above where it starts: in every prefix of its
    components there are at least as many going down as going up. *)
Definition down1 (c : list Z) : Z := match c with [] => 0 | [46] => 0 | [46; 46] => -1 | _ => 1 end.
Definition depth (cs : list (list Z)) : Z := fold_right (fun c n => down1 c + n) 0 cs.
Definition tame (name : list Z) : Prop := forall n, 0 <= depth (firstn n (components (cstr name))).
(** And ends below it. *)
Definition proper (name : list Z) : Prop := 0 < depth (components (cstr name)).

(** Names the receiver takes: not empty, no slash at either end. *)
Definition good_name (name : list Z) : Prop :=
  name <> [] /\ hd_error name <> Some 47 /\ last name 0 <> 47.
(** The path of a name below the destination directory. *)
Definition below_root (root name : list Z) : list Z :=
  root ++ (if last root 0 =? 47 then [] else [47]) ++ name.
