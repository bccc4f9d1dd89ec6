(** What a resuming session may do, and what recovery may claim after the
    death of the receiver. *)
From Verif Require Export Spec.LogSpec Spec.DiskSpec Model.CrashLog.

(** What the sender has decided about one file of the session. *)
Record fplan := { pl_name : list Z; pl_size : Z; pl_alloc : Z; pl_prev : Z }.
Definition fplans := Z -> option fplan.
Definition disk := list Z -> option (list Z).

(** The block belongs to its file's plan and lies inside the file. *)
Definition planned (p : fplans) (b : block_details) : Prop :=
  p (bd_seqId b) = Some {| pl_name := bd_fileName b; pl_size := bd_fileSize b;
                           pl_alloc := bd_alloc b; pl_prev := bd_prevSeqId b |} /\
  in_nat63 (bd_seqId b) /\ in_nat63 (bd_prevSeqId b) /\ zlen (bd_fileName b) <= 4097 /\
  0 <= bd_offset b /\ 0 <= bd_dataSize b /\ bd_offset b + bd_dataSize b <= bd_fileSize b /\
  bd_fileSize b < 2 ^ 63.

(** Byte [x] of [name] is among the reported pieces. *)
Definition reported (infos : list file_chunks) (name : list Z) (x : Z) : Prop :=
  exists f, In f infos /\ fc_fileName f = name /\ covered (fc_chunks f) x.
(** The plan was made from what recovery reported: every file is planned once;
    no piece is reported of a file to be created; a file said to exist has the
    sequence id it is reported with; a file that has to grow is not larger than
    wanted. Without preallocation no file has to shrink. *)
Record plan_fits (c : ccfg) (p : fplans) (d : disk) (infos : list file_chunks) : Prop := {
  pf_once : forall q1 q2 f1 f2, p q1 = Some f1 -> p q2 = Some f2 -> pl_name f1 = pl_name f2 -> q1 = q2;
  pf_alloc : forall q f, p q = Some f ->
    In (pl_alloc f) [NOT_EXISTS; EXISTS_CORRECT_SIZE; EXISTS_TOO_SMALL; EXISTS_TOO_LARGE; TO_BE_DELETED];
  pf_new : forall q f, p q = Some f -> pl_alloc f = NOT_EXISTS -> forall x, ~ reported infos (pl_name f) x;
  pf_same : forall q f i, p q = Some f ->
    pl_alloc f = EXISTS_CORRECT_SIZE \/ pl_alloc f = EXISTS_TOO_SMALL ->
    In i infos -> fc_seqId i = q -> fc_fileName i = pl_name f;
  pf_small : forall q f v, p q = Some f -> pl_alloc f = EXISTS_TOO_SMALL ->
    d (pl_name f) = Some v -> zlen v <= pl_size f;
  pf_shrink : forall q f, p q = Some f -> pl_alloc f = EXISTS_TOO_LARGE -> c_prealloc c = true
}.

(** Byte [x] of [name] has been given to the log in this session, or a block
    with it is fully written and waits for that, or another thread is writing
    one. *)
Definition covers (b : block_details) (name : list Z) (x : Z) : Prop :=
  bd_fileName b = name /\ bd_offset b <= x < bd_offset b + bd_dataSize b.
Definition taken (s : cstate) (i : nat) (name : list Z) (x : Z) : Prop :=
  (exists b, In b (cs_marked s) /\ covers b name x) \/
  (exists j t b r, nth_error (cs_thr s) j = Some t /\ In (b, r) (ct_wait t) /\ covers b name x) \/
  (exists j t b n r, nth_error (cs_thr s) j = Some t /\ i <> j /\ ct_op t = OWrite b n r /\
     covers b name x).
(** A step with a block of the plan and a proper time. A wrong byte may be
    written only when verification is on, and not over a byte that recovery
    reported or that is taken. *)
Definition entry_time (l : clabel) : Z :=
  match l with CInval _ ts | CCreate _ ts | CMark _ ts => ts | _ => 0 end.
Definition careful (c : ccfg) (p : fplans) (infos : list file_chunks) (l : clabel) (s : cstate) : Prop :=
  in_nat63 (entry_time l) /\
  match l with
  | CHeader _ b => planned p b
  | CWrite i bs => forall t b n r, nth_error (cs_thr s) i = Some t -> ct_op t = OWrite b n r ->
      right_bytes (c_src c (bd_fileName b)) (bd_offset b + n) bs = true \/
      (c_verify c = true /\
       forall x, bd_offset b + n <= x < bd_offset b + n + zlen bs ->
         ~ reported infos (bd_fileName b) x /\ ~ taken s i (bd_fileName b) x)
  | _ => True
  end.
Inductive careful_run (c : ccfg) (p : fplans) (infos : list file_chunks) : cstate -> cstate -> Prop :=
| CR0 s : careful_run c p infos s s
| CRS s1 l s2 s3 : careful_run c p infos s1 s2 -> careful c p infos l s2 ->
    cstep c l s2 = Some s3 -> careful_run c p infos s1 s3.

(** The start of a session on a disk with a log of these bytes: the log is
    parsed, the directory is invalidated if the log does not match (and may be
    for other reasons), the header is written. [infos]: what the sender is told. *)
Inductive starts (c : ccfg) (rid ip : list Z) (config : Z) (d : disk) (log : list Z)
  : list file_chunks -> tlm -> Prop :=
| ST_resume now r ts m : (forall q, in_nat63 (now q)) -> in_nat63 ts ->
    parseLog now (disk_opts c rid config d) (file_of log) [] = Ret r -> pr_status r = OK ->
    writeLogHeader ts {| tm_open := true; tm_file := pr_file r; tm_rid := rid; tm_ip := ip;
                         tm_config := config; tm_entries := []; tm_status := OK;
                         tm_headerWritten := false |} = Ret m ->
    starts c rid ip config d log (pr_infos r) m
| ST_anew now r ts ts' m m' : (forall q, in_nat63 (now q)) -> in_nat63 ts -> in_nat63 ts' ->
    parseLog now (disk_opts c rid config d) (file_of log) [] = Ret r -> pr_status r <> INVALID_LOG ->
    invalidateDirectory ts {| tm_open := true; tm_file := pr_file r; tm_rid := rid; tm_ip := ip;
                         tm_config := config; tm_entries := []; tm_status := pr_status r;
                         tm_headerWritten := false |} = Ret m ->
    writeLogHeader ts' m = Ret m' ->
    starts c rid ip config d log [] m'.

(** Disk and log after any number of sessions, each ended by the death of the
    receiver at some moment; between sessions files may be deleted. *)
Inductive survives (c : ccfg) (rid : list Z) (config : Z) : disk -> list Z -> Prop :=
| SV_new d : survives c rid config d []
| SV_deleted d log name : survives c rid config d log ->
    survives c rid config (dput d name None) log
| SV_session d log ip infos m p n s k : survives c rid config d log ->
    zlen rid + zlen ip <= 4103 ->
    starts c rid ip config d log infos m -> plan_fits c p d infos ->
    careful_run c p infos (c_begin n d m) s ->
    survives c rid config (cs_disk s) (log_after_death k s).

(** ---- for the refutations ---- *)
(** The same configuration, as far as plans are concerned, with preallocation:
    a plan for it may let files shrink. *)
Definition any_shrink (c : ccfg) : ccfg :=
  {| c_prealloc := true; c_delete := c_delete c; c_verify := c_verify c; c_src := c_src c |}.
(** Steps with blocks of the plan; what is written is not restricted. *)
Inductive planned_run (c : ccfg) (p : fplans) : cstate -> cstate -> Prop :=
| PR0 s : planned_run c p s s
| PRS s1 l s2 s3 : planned_run c p s1 s2 -> in_nat63 (entry_time l) ->
    (forall i b, l = CHeader i b -> planned p b) -> cstep c l s2 = Some s3 -> planned_run c p s1 s3.
(** A session on an invalid log: the log is closed and left as it is
    (TransferLogManager.cpp:596-600), nothing is known about the directory. *)
Definition closed_log (rid ip : list Z) (config : Z) (f : lfile) : tlm :=
  {| tm_open := false; tm_file := f; tm_rid := rid; tm_ip := ip; tm_config := config;
     tm_entries := []; tm_status := INVALID_LOG; tm_headerWritten := false |}.
(** Recovery on this disk and log reports byte [x] of [name], and the disk has
    something else there than the sender. *)
Definition misreports (c : ccfg) (rid : list Z) (config : Z) (d : disk) (log : list Z)
    (name : list Z) (x : Z) : Prop :=
  exists r f, parseLog (fun _ => 0) (disk_opts c rid config d) (file_of log) [] = Ret r /\
    reported (pr_infos r) name x /\ d name = Some f /\ rd f x <> Some (c_src c name x).
