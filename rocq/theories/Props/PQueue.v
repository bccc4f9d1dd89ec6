(** Properties C10, C11, C12, C48, C50: the sender's queue of blocks. *)
From Verif Require Import Proofs.QueueWorldFacts.

(** C10: queueing a file returns and adds an exact partition of the missing
    bytes. *)
Theorem C10_blocks_exact : forall q name size,
  NoDup (map fc_fileName (q_prev q)) -> 0 <= size -> pieces_fit (q_prev q) name size ->
  exists q' bs, createIntoQueue q (name, size) = Ret (Some q') /\
    q_queue q' = q_queue q ++ bs /\
    exact_blocks (q_prev q) (q_blockSizeMb q) name size bs.
Proof. exact create_exact. Qed.
Print Assumptions C10_blocks_exact.

(** A resumed 5 MiB file in 1 MiB blocks of which [1 MiB, 3 MiB + 7) arrived. *)
Definition c10_entry : file_chunks :=
  {| fc_seqId := 9; fc_fileName := [97]; fc_fileSize := 5242880;
     fc_chunks := [{| iv_start := 1048576; iv_end := 3145735 |}] |}.
Definition c10_queue : dq :=
  {| q_blockSizeMb := 1; q_delete := false; q_prev := [c10_entry]; q_next := 10; q_total := 0;
     q_entries := 0; q_blocks := 0; q_prevSent := 0; q_queue := []; q_deq := 0; q_files := [];
     q_initFinished := false |}.
Example C10_blocks_exact_example :
  NoDup (map fc_fileName (q_prev c10_queue)) /\ pieces_fit (q_prev c10_queue) [97] 5242880 /\
  exists q', createIntoQueue c10_queue ([97], 5242880) = Ret (Some q') /\
    map (fun s => (s_offset s, s_size s)) (q_queue q')
    = [(0, 1048576); (3145735, 1048576); (4194311, 1048569)].
Proof.
  split; [repeat constructor; intros []|]; split.
  - intros f [[<-|[]] _]; repeat constructor; cbn; lia.
  - eexists; split; vm_compute; reflexivity.
Qed.

(** C10 over whole runs: at every moment, the blocks of every discovered file
    (names distinct) are an exact partition of its missing bytes, whenever the
    receiver's list arrived. *)
Theorem C10_run_exact : forall mb del w name size,
  qreach mb del w -> NoDup (map fst (w_discovered w)) -> In (name, size) (w_discovered w) ->
  pieces_fit (q_prev (w_q w)) name size ->
  exact_blocks (q_prev (w_q w)) mb name size (blocks_named name (w_live w)).
Proof. exact reach_exact. Qed.
Print Assumptions C10_run_exact.

(** C10: the bound on loop iterations used in the model is not a restriction. *)
Theorem C10_iterations_suffice : forall fuel bs off rem l, 0 <= rem ->
  cut fuel bs off rem = Some l -> cut (cut_fuel bs rem) bs off rem = Some l.
Proof. exact cut_fuel_enough. Qed.
Print Assumptions C10_iterations_suffice.

(** C10 without the assumption on the announced pieces: with block transfer
    disabled, an empty file and a receiver announcing a piece beyond its end,
    queueing never ends. *)
Theorem C10_untrusted_pieces_refuted : exists q name,
  In hostile_entry (q_prev q) /\ file_chunks_ok hostile_entry /\
  getRemainingChunks (fc_chunks hostile_entry) 0 = Ret [{| iv_start := 0; iv_end := 5 |}] /\
  (forall fuel, cut fuel (blockSizeFor (q_blockSizeMb q) 0) 0 5 = None) /\
  createIntoQueue q (name, 0) = Ret None.
Proof. exact hostile_pieces. Qed.
Print Assumptions C10_untrusted_pieces_refuted.

(** C11: every block made or given back is in the queue, handed out, failed to
    open or was discarded by a rebuild, exactly once. *)
Theorem C11_conservation : forall mb del w, qreach mb del w ->
  Permutation (w_created w ++ w_returned w)
              (q_queue (w_q w) ++ w_handed w ++ w_unopened w ++ w_discarded w) /\
  q_deq (w_q w) = zlen (w_handed w) - zlen (w_returned w) /\ 0 <= q_deq (w_q w).
Proof. exact conservation. Qed.
Print Assumptions C11_conservation.

(** C11: a block handed out is one that no queued block precedes. *)
Theorem C11_handout_highest : forall w w' s,
  qstep w w' -> w_handed w' = w_handed w ++ [s] ->
  Permutation (q_queue (w_q w)) (s :: q_queue (w_q w')) /\
  forall t, In t (q_queue (w_q w)) -> ~ before t s.
Proof. exact handout_highest. Qed.
Print Assumptions C11_handout_highest.

(** C11: the order is a strict order, total up to equal rank. *)
Theorem C11_order_irreflexive : forall a, ~ before a a.
Proof. exact before_irrefl. Qed.
Theorem C11_order_transitive : forall a b c, before a b -> before b c -> before a c.
Proof. exact before_trans. Qed.
Theorem C11_order_total : forall a b, before a b \/ same_rank a b \/ before b a.
Proof. exact before_total. Qed.
Theorem C11_comparator : forall a b, src_less a b = true <-> before b a.
Proof. exact src_less_spec. Qed.
Print Assumptions C11_order_irreflexive.
Print Assumptions C11_order_transitive.
Print Assumptions C11_order_total.
Print Assumptions C11_comparator.

(** C11: something can be handed out whenever the queue is not empty, and all
    candidates have the same rank. *)
Theorem C11_handout_exists : forall q, q <> [] -> exists s q', pops q s q'.
Proof. exact pops_exists. Qed.
Theorem C11_handout_rank : forall q s q' t q'', pops q s q' -> pops q t q'' -> same_rank s t.
Proof. exact pops_rank. Qed.
Print Assumptions C11_handout_exists.
Print Assumptions C11_handout_rank.

(** C11: giving back blocks that were handed out never aborts. *)
Theorem C11_return_accepted : forall l q, zlen l <= q_deq q -> exists q', returnToQueue q l = Ret q'.
Proof. exact return_total. Qed.
Print Assumptions C11_return_accepted.

(** The announced number of blocks is the number of blocks made. *)
Theorem C11_block_count : forall mb del w, qreach mb del w -> q_blocks (w_q w) = zlen (w_live w).
Proof. exact blocks_counted. Qed.
Print Assumptions C11_block_count.

Definition c11_src (name off size failed alloc : Z) : source :=
  {| s_name := [name]; s_seqId := 1; s_fileSize := 100; s_alloc := alloc; s_prevSeqId := 0;
     s_offset := off; s_size := size; s_failed := failed |}.
Example C11_example :
  let a := c11_src 97 0 10 1 0 in let b := c11_src 98 0 20 0 0 in
  let c := c11_src 99 20 20 0 0 in let d := c11_src 100 0 0 5 TO_BE_DELETED in
  pop_top [a; c; b; d] = Some (d, [a; c; b]) /\
  pop_top [a; c; b] = Some (b, [a; c]) /\ pop_top [a; c] = Some (c, [a]).
Proof. vm_compute; auto. Qed.

(** C12: two live blocks with the same id belong to the same file. *)
Theorem C12_ids_distinct : forall mb del w,
  qreach mb del w -> prev_ids_distinct (q_prev (w_q w)) ->
  forall s t, In s (w_live w) -> In t (w_live w) -> s_seqId s = s_seqId t -> s_name s = s_name t.
Proof. exact ids_distinct. Qed.
Print Assumptions C12_ids_distinct.

(** C12: an id equal to one in the receiver's list means the same file. *)
Theorem C12_no_collision : forall mb del w,
  qreach mb del w -> prev_ids_distinct (q_prev (w_q w)) ->
  forall s f, In s (w_live w) -> In f (q_prev (w_q w)) -> s_seqId s = fc_seqId f ->
  s_name s = fc_fileName f.
Proof. exact ids_no_collision. Qed.
Print Assumptions C12_no_collision.

(** C12: all blocks of a file carry the same id. *)
Theorem C12_one_id_per_file : forall mb del w,
  qreach mb del w -> NoDup (map fst (w_discovered w)) ->
  forall s t, In s (w_live w) -> In t (w_live w) -> s_name s = s_name t -> s_seqId s = s_seqId t.
Proof. exact ids_same_file. Qed.
Print Assumptions C12_one_id_per_file.

(** C12: identity fields of the blocks of each file. *)
Theorem C12_identity : forall mb del w name size,
  qreach mb del w -> NoDup (map fst (w_discovered w)) -> In (name, size) (w_discovered w) ->
  exists id, forall s, In s (blocks_named name (w_live w)) ->
    identity_ok (q_prev (w_q w)) name size id s /\ ~ is_deletion s.
Proof. exact reach_identity. Qed.
Print Assumptions C12_identity.

(** The documented "first valid sequence id is 1" fails after an empty list. *)
Theorem C12_ids_start_at_one_refuted : exists w s,
  qreach 16 false w /\ In s (w_live w) /\ s_seqId s = 0.
Proof. exact zero_id_witness. Qed.
Print Assumptions C12_ids_start_at_one_refuted.

(** A resumed run: the receiver has "a" (id 4, half of it), "b" (id 7, larger
    than the sender's) and "x" (id 2, unknown to the sender); the sender has
    "a", "b", "c"; deletion is on. *)
Definition c12_list : list file_chunks :=
  [ {| fc_seqId := 4; fc_fileName := [97]; fc_fileSize := 10; fc_chunks := [{| iv_start := 0; iv_end := 5 |}] |};
    {| fc_seqId := 7; fc_fileName := [98]; fc_fileSize := 90; fc_chunks := [] |};
    {| fc_seqId := 2; fc_fileName := [120]; fc_fileSize := 3; fc_chunks := [] |} ].
Definition c12_cmds : list qcmd :=
  [CmdDiscover ([97], 10); CmdDiscover ([98], 8); CmdHand; CmdReturn [];
   CmdReturn [c11_src 97 0 10 1 0]; CmdSetPrev c12_list; CmdDiscover ([99], 6);
   CmdInitFinished; CmdHand; CmdHand].
Definition c12_world : qworld :=
  match qrun (qworld_init 16 true) c12_cmds with Some w => w | None => qworld_init 16 true end.
Example C12_example :
  qreach 16 true c12_world /\
  q_prev (w_q c12_world) = c12_list /\ prev_ids_distinct c12_list /\
  NoDup (map fst (w_discovered c12_world)) /\
  w_discovered c12_world = [([97], 10); ([98], 8); ([99], 6)] /\
  (forall n sz, In (n, sz) (w_discovered c12_world) -> pieces_fit c12_list n sz) /\
  q_initFinished (w_q c12_world) = true /\
  map (fun s => (s_name s, s_seqId s, s_alloc s, s_offset s, s_size s)) (w_live c12_world)
  = [([97], 4, EXISTS_CORRECT_SIZE, 5, 5); ([98], 8, EXISTS_TOO_LARGE, 0, 8);
     ([99], 9, NOT_EXISTS, 0, 6); ([120], 2, TO_BE_DELETED, 0, 0)] /\
  map s_name (w_handed c12_world) = [[97]; [120]; [98]].
Proof.
  split; [apply (qrun_reach 16 true c12_cmds (qworld_init 16 true)); [apply QR0|vm_compute; reflexivity]|].
  split; [vm_compute; reflexivity|]; split.
  { intros f g [<-|[<-|[<-|[]]]] [<-|[<-|[<-|[]]]]; cbn; intros E; congruence. }
  split; [vm_compute; repeat constructor; cbn; intuition discriminate|].
  split; [vm_compute; reflexivity|]; split; [|vm_compute; auto].
  intros n sz _ f [[<-|[<-|[<-|[]]]] [Hn Hs]]; repeat constructor; cbn in *; lia.
Qed.

(** C48: a deletion is only requested for a file the receiver announced and the
    sender did not find, after discovery finished and when asked for. *)
Theorem C48_only_extra_files : forall mb del w, qreach mb del w ->
  forall s, In s (w_live w) -> is_deletion s ->
  del = true /\ q_initFinished (w_q w) = true /\
  ~ In (s_name s) (map fst (w_discovered w)) /\
  exists f, In f (q_prev (w_q w)) /\ s_name s = fc_fileName f /\ s_seqId s = fc_seqId f /\
            s_size s = 0 /\ s_offset s = 0.
Proof. exact deletion_only_extra. Qed.
Print Assumptions C48_only_extra_files.

(** C48: and it is requested once for every such file. *)
Theorem C48_all_extra_files : forall mb w, qreach mb true w -> q_initFinished (w_q w) = true ->
  (forall f, In f (q_prev (w_q w)) -> ~ In (fc_fileName f) (map fst (w_discovered w)) ->
     exists s, In s (w_live w) /\ is_deletion s /\ s_name s = fc_fileName f /\ s_seqId s = fc_seqId f) /\
  NoDup (map s_name (filter (fun s => s_alloc s =? TO_BE_DELETED) (w_live w))).
Proof. exact deletion_all_extra. Qed.
Print Assumptions C48_all_extra_files.

(** C48: the list the queue works with is the list the receiver sent. *)
Theorem C48_list_kept : forall q l q', q_prev q = [] ->
  setPreviouslyReceivedChunks q l = Ret (Some q') -> Forall (fun f => 0 <= snd f) (q_files q) ->
  (forall name, In name (map fc_fileName (q_prev q')) <-> In name (map fc_fileName l)) /\
  (forall f, In f (q_prev q') -> In f l) /\ NoDup (map fc_fileName (q_prev q')).
Proof. exact set_prev_list. Qed.
Print Assumptions C48_list_kept.

(** C50: for a continued file, received plus queued bytes make up the file, and
    no queued block contains a received byte. *)
Theorem C50_resume_exact : forall mb del w name size f, qreach mb del w ->
  NoDup (map fst (w_discovered w)) -> In (name, size) (w_discovered w) ->
  pieces_fit (q_prev (w_q w)) name size -> resumes (q_prev (w_q w)) name size f ->
  getTotalChunkSize (fc_chunks f) + total_size (blocks_named name (w_live w)) = size /\
  (forall x, covered (fc_chunks f) x -> times_covered (blocks_named name (w_live w)) x = 0%nat).
Proof. exact reach_resume. Qed.
Print Assumptions C50_resume_exact.

(** C50: the counters. *)
Theorem C50_counters : forall q name size q' bs,
  NoDup (map fc_fileName (q_prev q)) -> 0 <= size -> pieces_fit (q_prev q) name size ->
  createIntoQueue q (name, size) = Ret (Some q') -> q_queue q' = q_queue q ++ bs ->
  q_total q' = q_total q + total_size bs /\ q_blocks q' = q_blocks q + zlen bs /\
  (q_prevSent q' - q_prevSent q) + total_size bs = size /\
  (forall f, resumes (q_prev q) name size f ->
     q_prevSent q' - q_prevSent q = getTotalChunkSize (fc_chunks f)).
Proof. exact create_counters. Qed.
Print Assumptions C50_counters.

Example C50_counters_example : exists q', createIntoQueue c10_queue ([97], 5242880) = Ret (Some q') /\
  resumes (q_prev c10_queue) [97] 5242880 c10_entry /\
  q_prevSent q' = 2097159 /\ total_size (q_queue q') = 3145721.
Proof.
  eexists; split; [vm_compute; reflexivity|]; split; [repeat split; [left; reflexivity|cbn; lia]|].
  vm_compute; auto.
Qed.
