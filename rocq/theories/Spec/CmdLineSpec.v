(** What the command line should mean. *)
From Verif Require Export Model.CmdLine.
Open Scope Z_scope.

(** The value of an option by name. *)
Definition oval (n : oname) (o : options) : Z :=
  match n with
  | NumPorts => o_num_ports o
  | BlockSize => o_block_size o
  | DisablePrealloc => Z.b2z (o_disable_preallocation o)
  | DirTree => Z.b2z (o_resume_using_dir_tree o)
  | StaticPorts => Z.b2z (o_static_ports o)
  | StartPort => o_start_port o
  | Resumption => Z.b2z (o_enable_download_resumption o)
  | SkipWrites => Z.b2z (o_skip_writes o)
  end.

(** The text of a list of files: a row has a name, a size and a flag, the last one or two
    of which may be missing. *)
Inductive row := Row1 (name : list Z) | Row2 (name : list Z) (size : Z) | Row3 (name : list Z) (size : Z) (direct : bool).
Definition row_name (r : row) : list Z := match r with Row1 n | Row2 n _ | Row3 n _ _ => n end.
Definition good_row (r : row) : Prop :=
  row_name r <> [] /\ ~ In 9 (row_name r) /\ ~ In 10 (row_name r) /\
  match r with Row1 _ => True | Row2 _ z | Row3 _ z _ => - 2 ^ 63 <= z < 2 ^ 63 end.
Definition row_text (r : row) : list Z :=
  match r with
  | Row1 n => n
  | Row2 n z => n ++ [9] ++ print_int z
  | Row3 n z b => n ++ [9] ++ print_int z ++ [9] ++ [if b then 49 else 48]
  end.
Definition row_means (direct : bool) (r : row) : list Z * Z * bool :=
  match r with Row1 n => (n, -1, direct) | Row2 n z => (n, z, direct) | Row3 n z b => (n, z, b) end.
Definition rows_text (l : list row) : list Z := concat (map (fun r => row_text r ++ [10]) l).
