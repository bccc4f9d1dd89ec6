(** What resumption based on the directory tree may claim, and how a session has to
    behave while the log says that the directory can be trusted. *)
From Verif Require Export Model.TreeResume Spec.CrashSpec Spec.ExploreSpec.
Open Scope Z_scope.

(** Every byte of every file is the one of the sender's file of that name. *)
Definition all_right (c : ccfg) (d : disk) : Prop :=
  forall name f x v, d name = Some f -> rd f x = Some v -> v = c_src c name x.

(** What the file system shows under [root] is on the disk. *)
Definition shows (root : list Z) (E : xenv) (d : disk) : Prop :=
  forall rel size, wanted (tree_xopts root) E rel size -> exists f, d rel = Some f /\ zlen f = size.

(** The sender's plan, made from [infos]: every file once; a file said to be too small
    or too large is reported with such a size. *)
Record tree_plan (p : fplans) (infos : list file_chunks) : Prop := {
  tp_once : forall q1 q2 f1 f2, p q1 = Some f1 -> p q2 = Some f2 -> pl_name f1 = pl_name f2 -> q1 = q2;
  tp_kind : forall q f, p q = Some f ->
    pl_alloc f = NOT_EXISTS \/ pl_alloc f = TO_BE_DELETED \/
    (pl_alloc f = EXISTS_TOO_SMALL /\
     exists i, In i infos /\ fc_fileName i = pl_name f /\ fc_fileSize i < pl_size f) \/
    (pl_alloc f = EXISTS_TOO_LARGE /\
     exists i, In i infos /\ fc_fileName i = pl_name f /\ pl_size f < fc_fileSize i)
}.
(** Where sending of the file begins: after what the receiver has if that is kept. *)
Definition first_offset (infos : list file_chunks) (f : fplan) (z : Z) : Prop :=
  (pl_alloc f <> EXISTS_TOO_SMALL /\ z = 0) \/
  (pl_alloc f = EXISTS_TOO_SMALL /\
   exists i, In i infos /\ fc_fileName i = pl_name f /\ z = fc_fileSize i).

(** [told]: name and end of what was written of each block a thread has left. A block
    starts where sending of its file begins, or where bytes written up to there are
    known: the sender does not cut files into blocks. What is written is right. *)
Definition tree_careful (c : ccfg) (p : fplans) (infos : list file_chunks) (told : list (list Z * Z))
    (l : clabel) (s : cstate) : Prop :=
  match l with
  | CHeader _ b => planned p b /\
      (bd_alloc b = TO_BE_DELETED \/
       exists f, p (bd_seqId b) = Some f /\
         (first_offset infos f (bd_offset b) \/
          exists e, In (bd_fileName b, e) told /\ bd_offset b <= e))
  | CWrite i bs => forall t b n r, nth_error (cs_thr s) i = Some t -> ct_op t = OWrite b n r ->
      right_bytes (c_src c (bd_fileName b)) (bd_offset b + n) bs = true
  | _ => True
  end.
Definition told_after (l : clabel) (s : cstate) (told : list (list Z * Z)) : list (list Z * Z) :=
  let left i := match nth_error (cs_thr s) i with
                | Some t => match ct_op t with
                            | OWrite b n _ => (bd_fileName b, bd_offset b + n) :: told
                            | _ => told
                            end
                | None => told
                end in
  match l with CSync i | CFail i => left i | _ => told end.

(** A run of a session. While the log says the directory can be trusted the steps are
    careful; afterwards anything may happen to the files. *)
Inductive tree_run (c : ccfg) (block resuming : bool) (p : fplans) (infos : list file_chunks)
  : tses -> list (list Z * Z) -> tses -> list (list Z * Z) -> Prop :=
| TR0 s told : tree_run c block resuming p infos s told s told
| TRE s0 t0 s told e s' : tree_run c block resuming p infos s0 t0 s told ->
    (forall ts ts', e = TvHeader ts ts' -> in_nat63 ts /\ in_nat63 ts') ->
    (forall l, e = TvStep l -> tm_status (cs_log (te_c s)) = OK ->
       tree_careful c p infos told l (te_c s)) ->
    tses_step c block resuming s e = Some s' ->
    tree_run c block resuming p infos s0 t0 s'
      (match e with TvStep l => told_after l (te_c s) told | _ => told end).

(** A session on a disk with a log of these bytes, up to some moment. *)
Definition tree_session (c : ccfg) (d : disk) (log : list Z) (s : tses) : Prop :=
  exists now ts ts1 rid fuel root E dis peer (block resuming : bool) p n infos m infos' m' told,
    (forall q, in_nat63 (now q)) /\ in_nat63 ts /\ in_nat63 ts1 /\
    peer <> [] /\ zlen rid + zlen peer <= 4103 /\ shows root E d /\
    tree_init now ts (c_prealloc c) rid fuel root E log = Ret (Some (infos, m)) /\
    tree_begin ts1 dis peer infos m = Ret (infos', m') /\
    tree_plan p (if resuming then infos' else []) /\
    tree_run c block resuming p (if resuming then infos' else []) (tses_begin n d m') [] s told.

(** Disk and log after any number of sessions, each ended by death, closed after a
    failure, or by success. Files may be deleted in between.
    A session that succeeds although the directory was not trusted leaves right files
    only. *)
Inductive tree_survives (c : ccfg) : disk -> list Z -> Prop :=
| TS_new d : all_right c d -> tree_survives c d []
| TS_deleted d log name : tree_survives c d log -> tree_survives c (dput d name None) log
| TS_dies d log s : tree_survives c d log -> tree_session c d log s ->
    tree_survives c (cs_disk (te_c s)) (lf_data (tm_file (cs_log (te_c s))))
| TS_fails d log s ts keep log' : tree_survives c d log -> tree_session c d log s ->
    tree_close ts false keep (cs_log (te_c s)) = Ret log' ->
    tree_survives c (cs_disk (te_c s)) log'
| TS_succeeds d log s ts keep log' : tree_survives c d log -> tree_session c d log s ->
    in_nat63 ts ->
    (tm_status (cs_log (te_c s)) <> OK -> all_right c (cs_disk (te_c s))) ->
    tree_close ts true keep (cs_log (te_c s)) = Ret log' ->
    tree_survives c (cs_disk (te_c s)) log'.

(** The next session reports byte [x] of [name], and the disk has something else there
    than the sender. *)
Definition tree_misreports (c : ccfg) (rid root : list Z) (E : xenv) (d : disk) (log : list Z)
    (name : list Z) (x : Z) : Prop :=
  shows root E d /\
  exists fuel infos m f,
    tree_init (fun _ => 0) 0 (c_prealloc c) rid fuel root E log = Ret (Some (infos, m)) /\
    reported infos name x /\ d name = Some f /\ rd f x <> Some (c_src c name x).

(** Events of a session in which blocks are planned and what is written is right; a
    file may be cut into blocks. *)
Fixpoint steps_right (c : ccfg) (block resuming : bool) (p : fplans) (s : tses) (l : list tev) : Prop :=
  match l with
  | [] => True
  | e :: r =>
      match e with
      | TvStep (CHeader _ b) => planned p b
      | TvStep (CWrite i bs) => forall t b n ok, nth_error (cs_thr (te_c s)) i = Some t ->
          ct_op t = OWrite b n ok -> right_bytes (c_src c (bd_fileName b)) (bd_offset b + n) bs = true
      | _ => True
      end /\
      forall s', tses_step c block resuming s e = Some s' -> steps_right c block resuming p s' r
  end.
