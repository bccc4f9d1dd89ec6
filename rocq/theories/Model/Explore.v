(** Discovery of the files to send: DirectorySourceQueue::explore and
    enqueueFiles, util/DirectorySourceQueue.cpp.

    The file system is what its calls answer, each as a function of the path: it
    does not change while it is explored. A directory is listed in the order of
    readdir. The patterns are predicates on relative paths; that std::regex may
    throw for a malformed pattern, and opening the files during discovery, are left
    out. The files are handed to createIntoQueue (Model/SourceQueue.v) in the order
    in which they are found. *)
From Verif Require Export Model.SourceQueue.
Open Scope Z_scope.

(** d_type of a directory entry. *)
Inductive dtype := DtDir | DtReg | DtLnk | DtUnknown | DtOther.
Record dent := { de_name : list Z; de_type : dtype }.
(** The file type in st_mode. *)
Inductive fkind := FkReg | FkDir | FkLnk | FkOther.

(** [xe_opendir]: the entries readdir gives and whether it then fails; [None]:
    opendir fails. [xe_lstat], [xe_stat]: type and st_size. [xe_realpath]: empty when
    realpath fails. [xe_abort k]: what shouldAbort says the [k]-th time. *)
Record xenv := {
  xe_opendir : list Z -> option (list dent * bool);
  xe_lstat : list Z -> option (fkind * Z);
  xe_stat : list Z -> option (fkind * Z);
  xe_realpath : list Z -> list Z;
  xe_abort : nat -> bool
}.
(** rootDir_ (ends with a slash, setRootDir, 118-142), followSymlinks_ and the
    patterns; [None]: the pattern is empty. *)
Record xopts := {
  xo_root : list Z;
  xo_follow : bool;
  xo_include : option (list Z -> bool);
  xo_exclude : option (list Z -> bool);
  xo_prune : option (list Z -> bool)
}.

(** Local variables of explore (262-269), failedDirectories_, and the files found
    so far with their sizes. *)
Record xst := {
  xs_todo : list (list Z);
  xs_visited : list (list Z);
  xs_files : list (list Z * Z);
  xs_failed : list (list Z);
  xs_error : bool;
  xs_polls : nat
}.
Definition xs_init : xst :=
  {| xs_todo := [[]]; xs_visited := []; xs_files := []; xs_failed := [];
     xs_error := false; xs_polls := 0 |}.
Definition xs_fail (s : xst) : xst :=
  {| xs_todo := xs_todo s; xs_visited := xs_visited s; xs_files := xs_files s;
     xs_failed := xs_failed s; xs_error := true; xs_polls := xs_polls s |}.
Definition xs_poll (s : xst) : xst :=
  {| xs_todo := xs_todo s; xs_visited := xs_visited s; xs_files := xs_files s;
     xs_failed := xs_failed s; xs_error := xs_error s; xs_polls := S (xs_polls s) |}.

Definition xslash : Z := 47.
(** The names skipped, 311-317. *)
Definition is_dots (n : list Z) : bool := str_eqb n [46] || str_eqb n [46; 46].

(** A directory was found, 385-402. *)
Definition found_dir (o : xopts) (rel full : list Z) (s : xst) : xst :=
  let push s' :=
    if match xo_prune o with None => true | Some p => negb (p (rel ++ [xslash])) end
    then {| xs_todo := xs_todo s' ++ [rel ++ [xslash]]; xs_visited := xs_visited s';
            xs_files := xs_files s'; xs_failed := xs_failed s'; xs_error := xs_error s';
            xs_polls := xs_polls s' |}
    else s' in
  if xo_follow o then
    if existsb (str_eqb full) (xs_visited s) then xs_fail s
    else push {| xs_todo := xs_todo s; xs_visited := full :: xs_visited s;
                 xs_files := xs_files s; xs_failed := xs_failed s; xs_error := xs_error s;
                 xs_polls := xs_polls s |}
  else push s.
(** A regular file was found, 369-383. *)
Definition found_file (o : xopts) (rel : list Z) (size : Z) (s : xst) : xst :=
  if match xo_exclude o with None => false | Some p => p rel end then s
  else if match xo_include o with None => false | Some p => negb (p rel) end then s
  else {| xs_todo := xs_todo s; xs_visited := xs_visited s;
          xs_files := xs_files s ++ [(rel, size)]; xs_failed := xs_failed s;
          xs_error := xs_error s; xs_polls := xs_polls s |}.
(** By the mode of the (last) stat call, 366-385. *)
Definition by_kind (o : xopts) (rel full : list Z) (st : fkind * Z) (s : xst) : xst :=
  match fst st with
  | FkReg => found_file o rel (snd st) s
  | FkDir => found_dir o rel full s
  | _ => s
  end.
(** One entry of a directory, 311-402. *)
Definition entry_step (o : xopts) (E : xenv) (dir : list Z) (d : dent) (s : xst) : xst :=
  if is_dots (de_name d) then s
  else
    let keep := match de_type d with
                | DtDir | DtReg | DtUnknown => true
                | DtLnk => xo_follow o
                | DtOther => false
                end in
    if negb keep then s
    else
      let rel := dir ++ de_name d in
      let full := xo_root o ++ rel in
      match de_type d with
      | DtDir => found_dir o rel full s
      | _ =>
          match xe_lstat E full with
          | None => xs_fail s
          | Some st =>
              match fst st, xo_follow o with
              | FkLnk, true =>
                  match xe_stat E full with
                  | None => xs_fail s
                  | Some st' =>
                      match xe_realpath E full with
                      | [] => xs_fail s
                      | full' => by_kind o rel full' st' s
                      end
                  end
              | _, _ => by_kind o rel full st s
              end
          end
      end.
(** The loop over the entries of one directory, 291-403; [bad]: readdir fails in
    the end. *)
Fixpoint read_entries (o : xopts) (E : xenv) (dir : list Z) (l : list dent) (bad : bool) (s : xst) : xst :=
  if xe_abort E (xs_polls s) then xs_poll s
  else
    match l with
    | [] => if bad then xs_fail (xs_poll s) else xs_poll s
    | d :: r => read_entries o E dir r bad (entry_step o E dir d (xs_poll s))
    end.
(** explore, 256-410: the state at its end; it returns the negation of
    [xs_error]. Out of fuel: [Undef]. *)
Fixpoint explore_loop (fuel : nat) (o : xopts) (E : xenv) (s : xst) : outcome xst :=
  match xs_todo s with
  | [] => Ret s
  | dir :: rest =>
      match fuel with
      | O => Undef
      | S fuel' =>
          if xe_abort E (xs_polls s) then Ret (xs_fail (xs_poll s))
          else
            let s1 := {| xs_todo := rest; xs_visited := xs_visited s; xs_files := xs_files s;
                         xs_failed := xs_failed s; xs_error := xs_error s;
                         xs_polls := S (xs_polls s) |} in
            match xe_opendir E (xo_root o ++ dir) with
            | None =>
                explore_loop fuel' o E
                  {| xs_todo := rest; xs_visited := xs_visited s; xs_files := xs_files s;
                     xs_failed := xs_failed s ++ [xo_root o ++ dir]; xs_error := true;
                     xs_polls := S (xs_polls s) |}
            | Some (l, bad) => explore_loop fuel' o E (read_entries o E dir l bad s1)
            end
      end
  end.
Definition explore (fuel : nat) (o : xopts) (E : xenv) : outcome xst :=
  match xo_root o with
  | [] => Crash
  | _ => explore_loop fuel o E xs_init
  end.

(** enqueueFiles, 570-595: a given list of names and sizes (negative: ask the file
    system). The files queued, the name recorded as failed, and the result. *)
Fixpoint enqueueFiles (root : list Z) (E : xenv) (k : nat) (l : list (list Z * Z))
  : list (list Z * Z) * option (list Z) * bool :=
  match l with
  | [] => ([], None, true)
  | (name, size) :: r =>
      if xe_abort E k then ([], None, false)
      else
        let more size' :=
          let '(fs, failed, ok) := enqueueFiles root E (S k) r in
          ((name, size') :: fs, failed, ok) in
        if size <? 0 then
          match xe_stat E (root ++ name) with
          | None => ([], Some name, false)
          | Some st => more (snd st)
          end
        else more size
  end.

(** buildQueueSynchronously with exploration, 189-234, on the queue: every file
    found goes through createIntoQueue, then the discovery is finished whatever
    explore returned. The result of explore is returned, and dropped by the thread
    started in buildQueueAsynchronously (184-187). *)
Fixpoint create_found (q : dq) (files : list (list Z * Z)) : outcome (option dq) :=
  match files with
  | [] => Ret (Some q)
  | f :: r =>
      obind (createIntoQueue q f) (fun o =>
      match o with
      | None => Ret None
      | Some q' => create_found q' r
      end)
  end.
Definition buildQueue (fuel : nat) (o : xopts) (E : xenv) (q : dq) : outcome (option (dq * xst)) :=
  obind (explore fuel o E) (fun s =>
  obind (create_found q (xs_files s)) (fun r =>
  match r with
  | None => Ret None
  | Some q' => Ret (Some (finishInit q', s))
  end)).
