(** The directories FileCreator::createFile makes, FileCreator.cpp:201-293, and
    createDirRecursively, 296-335, with createdDirs_, at the grain of single system calls
    and uses of the mutex, in a tree of directories and files. A path is the list of its
    components; components "", "." and ".." are left out (see PathOps). *)
From Coq Require Export ZArith List Bool.
Import ListNotations.
Open Scope Z_scope.

(** relPathStr, 201, cut at its slashes, each name a number. *)
Definition path := list Z.
(** The comparison of names in createdDirs_, FileCreator.h:160-163. *)
Definition path_eqb (p q : path) : bool := if list_eq_dec Z.eq_dec p q then true else false.
(** dirCreated, FileCreator.h:160-163. *)
Definition mem (p : path) (l : list path) : bool := existsb (path_eqb p) l.

(** The file system below rootDir_, FileCreator.h:169, which is []; it exists
    (constructor, 43-53). Rights, links and full disks are left out. *)
Record tree := { tr_dirs : list path; tr_files : list path }.
(** What lookups by mkdir, 320, and open, 264, find. *)
Definition is_dir (t : tree) (p : path) : bool := match p with [] => true | _ => mem p (tr_dirs t) end.
Definition is_file (t : tree) (p : path) : bool := mem p (tr_files t).
(** The directory [p] is in, 213-219 and 308-311. *)
Definition parent (p : path) : path := removelast p.

(** mkdir(2), 320-321. [None]: an error other than EEXIST and EISDIR. *)
Definition mkdir (t : tree) (p : path) : option tree :=
  if negb (is_dir t (parent p)) then None
  else if is_dir t p || is_file t p then Some t
  else Some {| tr_dirs := p :: tr_dirs t; tr_files := tr_files t |}.
(** open(2), 264 and 285, with O_CREAT and O_TRUNC or, if [excl], O_EXCL, 242-260. [None]: -1. *)
Definition open_new (excl : bool) (t : tree) (p : path) : option tree :=
  if negb (is_dir t (parent p)) then None
  else if is_dir t p then None
  else if is_file t p then if excl then None else Some t
  else Some {| tr_dirs := tr_dirs t; tr_files := p :: tr_files t |}.

(** Where a thread is in createFile, 201-293. [pass]: 0 the first call of createDirRecursively, 1 the second,
    with force, after the first failed, 2 the one after a failed open. [k]: the directory of
    the first [k] components. *)
Inductive fpc :=
| PCheck (k : nat)             (* dirCreated, the recursion going up *)
| PMk (pass k : nat)           (* mkdir *)
| PIns (pass k : nat)          (* createdDirs_.insert *)
| POpen (again : bool)
| POk | PErr.
(** A call of createFile, 201, with skip_writes off. *)
Record creator := { cr_dir : path; cr_name : Z; cr_pc : fpc }.
(** path, 211. *)
Definition cr_path (c : creator) : path := cr_dir c ++ [cr_name c].
(** Its start, 213-224: a file of the root directory needs no directories. *)
Definition creator_new (dir : path) (name : Z) : creator :=
  {| cr_dir := dir; cr_name := name; cr_pc := match dir with [] => POpen false | _ => PCheck (length dir) end |}.
(** The receiver's threads, with the tree and createdDirs_, FileCreator.h:172, they share. *)
Record dsys := { ds_tree : tree; ds_known : list path; ds_threads : list creator }.

(** After createDirRecursively returned true: the first open, 264, or the second, 285. *)
Definition opens (pass : nat) : fpc := POpen (match pass with 2%nat => true | _ => false end).
(** One step of a thread in createFile, 219-291, and createDirRecursively, 296-335: the tree, createdDirs_ and where it goes. [None]: it has ended. *)
Definition cstep (excl : bool) (t : tree) (known : list path) (c : creator) : option (tree * list path * fpc) :=
  let n := length (cr_dir c) in
  match cr_pc c with
  | PCheck k =>
      if mem (firstn k (cr_dir c)) known then
        Some (t, known, if (k =? n)%nat then opens 0 else PMk 0 (S k))
      else Some (t, known, match k with S (S j) => PCheck (S j) | _ => PMk 0 1 end)
  | PMk pass k =>
      match mkdir t (firstn k (cr_dir c)) with
      | Some t' => Some (t', known, PIns pass k)
      | None => Some (t, known, match pass with O => PMk 1 1 | _ => PErr end)
      end
  | PIns pass k =>
      Some (t, firstn k (cr_dir c) :: known, if (k =? n)%nat then opens pass else PMk pass (S k))
  | POpen again =>
      match open_new excl t (cr_path c) with
      | Some t' => Some (t', known, POk)
      | None => Some (t, known, match cr_dir c with [] => PErr | _ => if again then PErr else PMk 2 1 end)
      end
  | POk | PErr => None
  end.
(** The state of one thread replaced (no code). *)
Definition set_creator (l : list creator) (i : nat) (c : creator) : list creator := firstn i l ++ c :: skipn (S i) l.
(** Someone else removes an empty directory (no code of wdt). *)
Definition rmdir (t : tree) (p : path) : tree :=
  {| tr_dirs := filter (fun q => negb (path_eqb p q)) (tr_dirs t); tr_files := tr_files t |}.
(** What may happen next: a thread goes on, or the above. *)
Inductive dev := DStep (i : nat) | DRmdir (p : path).
(** One such event; [None]: it cannot happen. *)
Definition dstep (excl : bool) (s : dsys) (e : dev) : option dsys :=
  match e with
  | DStep i =>
      match nth_error (ds_threads s) i with
      | Some c =>
          match cstep excl (ds_tree s) (ds_known s) c with
          | Some (t, k, pc) =>
              Some {| ds_tree := t; ds_known := k;
                      ds_threads := set_creator (ds_threads s) i {| cr_dir := cr_dir c; cr_name := cr_name c; cr_pc := pc |} |}
          | None => None
          end
      | None => None
      end
  | DRmdir p =>
      if forallb (fun q => negb (path_eqb (parent q) p)) (tr_dirs (ds_tree s) ++ tr_files (ds_tree s)) then
        Some {| ds_tree := rmdir (ds_tree s) p; ds_known := ds_known s; ds_threads := ds_threads s |}
      else None
  end.
(** Any number of them. *)
Fixpoint drun (excl : bool) (s : dsys) (l : list dev) : option dsys :=
  match l with [] => Some s | e :: r => match dstep excl s e with Some s' => drun excl s' r | None => None end end.
