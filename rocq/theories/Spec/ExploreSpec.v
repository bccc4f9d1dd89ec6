(** What discovery should find, in terms of what the file system answers. *)
From Verif Require Export Model.Explore.
Open Scope Z_scope.

(** [d] is an entry of directory [dir] (a path relative to the root), other than
    itself and its parent. *)
Definition entry_of (o : xopts) (E : xenv) (dir : list Z) (d : dent) : Prop :=
  exists l bad, xe_opendir E (xo_root o ++ dir) = Some (l, bad) /\ In d l /\
    de_name d <> [46] /\ de_name d <> [46; 46].

(** The path names a regular file of this size: itself, or by a symbolic link
    when links are followed. *)
Definition is_file (o : xopts) (E : xenv) (rel : list Z) (size : Z) : Prop :=
  xe_lstat E (xo_root o ++ rel) = Some (FkReg, size) \/
  (xo_follow o = true /\ (exists z, xe_lstat E (xo_root o ++ rel) = Some (FkLnk, z)) /\
   xe_stat E (xo_root o ++ rel) = Some (FkReg, size)).

(** The entry is a directory: readdir says so, or lstat, or stat when links are
    followed. *)
Definition is_dir (o : xopts) (E : xenv) (dir : list Z) (d : dent) : Prop :=
  de_type d = DtDir \/
  (exists z, xe_lstat E (xo_root o ++ dir ++ de_name d) = Some (FkDir, z)) \/
  (xo_follow o = true /\ (exists z, xe_lstat E (xo_root o ++ dir ++ de_name d) = Some (FkLnk, z)) /\
   exists z, xe_stat E (xo_root o ++ dir ++ de_name d) = Some (FkDir, z)).

Definition selected (p : option (list Z -> bool)) (default : bool) (rel : list Z) : bool :=
  match p with None => default | Some f => f rel end.

(** Directories below [top] not cut off by the pruning pattern. *)
Inductive reach (o : xopts) (E : xenv) (top : list Z) : list Z -> Prop :=
| ReachTop : reach o E top top
| ReachSub dir d : reach o E top dir -> entry_of o E dir d -> is_dir o E dir d ->
    selected (xo_prune o) false (dir ++ de_name d ++ [47]) = false ->
    reach o E top (dir ++ de_name d ++ [47]).

(** A file that must be sent. *)
Definition wanted (o : xopts) (E : xenv) (rel : list Z) (size : Z) : Prop :=
  exists dir d, reach o E [] dir /\ entry_of o E dir d /\ rel = dir ++ de_name d /\
    is_file o E rel size /\
    selected (xo_exclude o) false rel = false /\ selected (xo_include o) true rel = true.

(** readdir and lstat do not contradict each other: the type in the entry is the
    one lstat gives, if it answers. *)
Definition types_agree (o : xopts) (E : xenv) : Prop :=
  forall dir d k z, entry_of o E dir d ->
    xe_lstat E (xo_root o ++ dir ++ de_name d) = Some (k, z) ->
    match de_type d with
    | DtDir => k = FkDir
    | DtReg => k = FkReg
    | DtLnk => k = FkLnk
    | DtOther => k = FkOther
    | DtUnknown => True
    end.

(** Names in a directory differ and contain no slash. *)
Definition names_ok (E : xenv) : Prop :=
  forall p l bad, xe_opendir E p = Some (l, bad) ->
    NoDup (map de_name l) /\ forall d, In d l -> ~ In 47 (de_name d).

(** Everything that has to be looked at can be: all directories reached can be
    read to their end, and lstat answers for their entries. *)
Definition all_examined (o : xopts) (E : xenv) : Prop :=
  forall dir, reach o E [] dir ->
    exists l, xe_opendir E (xo_root o ++ dir) = Some (l, false) /\
      forall d, In d l -> xe_lstat E (xo_root o ++ dir ++ de_name d) <> None.

(** A finite file system seen through paths: [n] directories, [loc p] the one a path
    ending in a slash leads to, [ls i] its entries, [depth i] its depth in the tree of
    directories, [canon i] its canonical path. Symbolic links may lead anywhere. *)
Record finite_fs (o : xopts) (E : xenv) (n : nat) (loc : list Z -> option nat)
  (ls : nat -> list dent) (depth : nat -> nat) (canon : nat -> list Z) : Prop := {
  ff_root : loc (xo_root o) <> None;
  ff_bound : forall p i, loc p = Some i -> (i < n)%nat /\ (depth i < n)%nat;
  ff_ls : forall p i l bad, loc p = Some i -> xe_opendir E p = Some (l, bad) -> l = ls i;
  ff_sub : forall p i d, loc p = Some i -> In d (ls i) ->
    de_name d <> [46] -> de_name d <> [46; 46] ->
    de_type d = DtDir \/ (exists z, xe_lstat E (p ++ de_name d) = Some (FkDir, z)) ->
    exists j, loc (p ++ de_name d ++ [47]) = Some j /\ (depth i < depth j)%nat;
  ff_link : forall p i d z z', loc p = Some i -> In d (ls i) ->
    xe_lstat E (p ++ de_name d) = Some (FkLnk, z) ->
    xe_stat E (p ++ de_name d) = Some (FkDir, z') ->
    xe_realpath E (p ++ de_name d) <> [] ->
    exists j, loc (p ++ de_name d ++ [47]) = Some j /\
      xe_realpath E (p ++ de_name d) = canon j
}.

(** A file of a given list as it is queued: same name, the given size, or the size
    stat gives when none was given. *)
Definition resolved (E : xenv) (root : list Z) (given queued : list Z * Z) : Prop :=
  fst queued = fst given /\
  (0 <= snd given -> snd queued = snd given) /\
  (snd given < 0 -> exists k, xe_stat E (root ++ fst given) = Some (k, snd queued)).
