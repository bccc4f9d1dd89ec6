(** C56: discovery of the files to send. *)
From Verif Require Import Spec.ExploreSpec Proofs.ExploreFacts Proofs.ExploreQueueFacts Proofs.ExploreWitness.
Open Scope Z_scope.

(** Only files that should be sent are queued, with the size the file system gives,
    whatever fails. *)
Theorem C56_only_wanted fuel o E s : explore fuel o E = Ret s ->
  forall rel size, In (rel, size) (xs_files s) -> wanted o E rel size.
Proof. exact (explore_sound fuel o E s). Qed.
Print Assumptions C56_only_wanted.

(** No file is queued twice. *)
Theorem C56_once fuel o E s : names_ok E -> explore fuel o E = Ret s ->
  NoDup (map fst (xs_files s)).
Proof. exact (explore_once fuel o E s). Qed.
Print Assumptions C56_once.

(** Every file that should be sent is queued: always when links are not followed,
    also if something else could not be examined; with links when exploration
    reports no error. *)
Theorem C56_all_wanted fuel o E s : types_agree o E -> (forall k, xe_abort E k = false) ->
  explore fuel o E = Ret s -> xs_error s = false \/ xo_follow o = false ->
  forall rel size, wanted o E rel size -> In (rel, size) (xs_files s).
Proof. exact (explore_complete fuel o E s). Qed.
Print Assumptions C56_all_wanted.

(** Without an error, all directories were read to their end, and lstat answered
    for every entry that can be a file. *)
Theorem C56_no_error_means_examined fuel o E s : types_agree o E -> (forall k, xe_abort E k = false) ->
  explore fuel o E = Ret s -> xs_error s = false ->
  forall dir, reach o E [] dir ->
  exists l, xe_opendir E (xo_root o ++ dir) = Some (l, false) /\
    forall d, In d l -> de_name d <> [46] -> de_name d <> [46; 46] ->
      de_type d = DtReg \/ de_type d = DtUnknown -> xe_lstat E (xo_root o ++ dir ++ de_name d) <> None.
Proof. exact (explore_examined fuel o E s). Qed.
Print Assumptions C56_no_error_means_examined.

(** A traversal that stops before it has read every directory it found, because the
    transfer is aborted, reports an error. *)
Theorem C56_stopped_early_is_error fuel o E s : explore fuel o E = Ret s -> xs_error s = false ->
  xs_todo s = [].
Proof. exact (explore_stopped fuel o E s). Qed.
Print Assumptions C56_stopped_early_is_error.
Example C56_stopped_early_ex : exists s,
  explore 10 (opts false) {| xe_opendir := xe_opendir tree_env; xe_lstat := xe_lstat tree_env;
     xe_stat := xe_stat tree_env; xe_realpath := xe_realpath tree_env; xe_abort := Nat.leb 5 |} = Ret s /\
  xs_error s = true /\ xs_todo s = [[100; 47]].
Proof. eexists; split; [vm_compute; reflexivity|split; vm_compute; reflexivity]. Qed.

(** Conversely there is no error when everything can be examined (links not
    followed). *)
Theorem C56_examined_no_error fuel o E s : xo_follow o = false -> (forall k, xe_abort E k = false) ->
  all_examined o E -> explore fuel o E = Ret s -> xs_error s = false.
Proof. exact (explore_noerr fuel o E s). Qed.
Print Assumptions C56_examined_no_error.

(** A directory that cannot be opened is listed for the report (links not
    followed). *)
Theorem C56_unopened_listed fuel o E s : types_agree o E -> (forall k, xe_abort E k = false) ->
  explore fuel o E = Ret s -> xo_follow o = false ->
  forall dir, reach o E [] dir -> xe_opendir E (xo_root o ++ dir) = None ->
  In (xo_root o ++ dir) (xs_failed s).
Proof. exact (explore_failed fuel o E s). Qed.
Print Assumptions C56_unopened_listed.

(** Exploration of a finite file system ends, also when links form cycles. *)
Theorem C56_ends o E n loc ls depth canon : xo_root o <> [] ->
  finite_fs o E n loc ls depth canon -> exists fuel s, explore fuel o E = Ret s.
Proof. exact (explore_ends o E n loc ls depth canon). Qed.
Print Assumptions C56_ends.
Theorem C56_one_result f1 f2 o E s1 s2 : explore f1 o E = Ret s1 -> explore f2 o E = Ret s2 -> s1 = s2.
Proof. exact (explore_fuel f1 f2 o E s1 s2). Qed.
Print Assumptions C56_one_result.

(** The queue built from it: a run of the queue of C10 to C12 which discovered
    exactly these files; with no list from a receiver, the blocks of each file cover
    each of its bytes once. *)
Theorem C56_queue fuel o E mb del q s : names_ok E ->
  (forall p k z, xe_lstat E p = Some (k, z) \/ xe_stat E p = Some (k, z) -> 0 <= z) ->
  buildQueue fuel o E (dq_init mb del) = Ret (Some (q, s)) ->
  explore fuel o E = Ret s /\
  (exists w, qreach mb del w /\ w_q w = q /\ w_discovered w = xs_files s) /\
  (forall rel size, In (rel, size) (xs_files s) -> exact_blocks [] mb rel size (blocks_named rel (q_queue q))).
Proof. exact (queued fuel o E mb del q s). Qed.
Print Assumptions C56_queue.

(** A given list of files instead of a directory: on success every file is queued
    with the given size, or that of stat; otherwise the file that could not be
    examined is recorded as failed. *)
Theorem C56_given_list E root l k fs failed :
  enqueueFiles root E k l = (fs, failed, true) -> failed = None /\ Forall2 (resolved E root) l fs.
Proof. exact (enqueue_ok E root l k fs failed). Qed.
Print Assumptions C56_given_list.
Theorem C56_given_list_failure E root : (forall k, xe_abort E k = false) -> forall l k fs failed,
  enqueueFiles root E k l = (fs, failed, false) ->
  exists name size, failed = Some name /\ In (name, size) l /\ size < 0 /\ xe_stat E (root ++ name) = None.
Proof. exact (enqueue_bad E root). Qed.
Print Assumptions C56_given_list_failure.

Example C56_queue_ex : exists q s,
  buildQueue 10 (opts false) tree_env (dq_init 0 false) = Ret (Some (q, s)) /\
  map s_name (q_queue q) = [[97]; [100; 47; 98]] /\
  map s_offset (q_queue q) = [0; 0] /\ map s_size (q_queue q) = [5; 7].
Proof.
  eexists _, _. split; [vm_compute; reflexivity|].
  split; [vm_compute; reflexivity|split; vm_compute; reflexivity].
Qed.
Example C56_given_list_ex :
  enqueueFiles rt (link_env true) 0 [([120], 3); ([108], -1)] = ([([120], 3); ([108], 0)], None, true) /\
  enqueueFiles rt (link_env true) 0 [([120], 3); ([120], -1)] = ([([120], 3)], Some [120], false).
Proof. split; vm_compute; reflexivity. Qed.

(** A tree with a link back to its root: without links both files are found and all
    hypotheses hold; with links the cycle is noticed. *)
Example C56_ex :
  types_agree (opts false) tree_env /\ names_ok tree_env /\ all_examined (opts false) tree_env /\
  finite_fs (opts true) tree_env 2 tree_loc tree_ls (fun i => i) (fun _ => [114]) /\
  (exists s, explore 10 (opts false) tree_env = Ret s /\ xs_error s = false /\
     xs_files s = [([97], 5); ([100; 47; 98], 7)]) /\
  (exists s, explore 10 (opts true) tree_env = Ret s /\ xs_error s = true /\
     xs_files s = [([97], 5); ([100; 47; 98], 7); ([100; 47; 99; 47; 97], 5); ([100; 47; 99; 47; 100; 47; 98], 7)]).
Proof.
  split; [exact (tree_types false)|]. split; [exact tree_names|]. split; [exact tree_examined|].
  split; [exact (tree_finite true)|]. split; eexists; (split; [vm_compute; reflexivity|split; vm_compute; reflexivity]).
Qed.
Example C56_unopened_ex : exists s, explore 10 (opts false) shut_env = Ret s /\
  xs_failed s = [rt ++ [100; 47]] /\
  getErrorCode (senderReport [] [sent_all 5] (xs_failed s) 5 1) = BYTE_SOURCE_READ_ERROR.
Proof. eexists; split; [vm_compute; reflexivity|split; vm_compute; reflexivity]. Qed.

(** A file that lstat cannot examine is dropped; explore returns false, but the
    callers ignore that, no directory counts as failed, and the report says OK. *)
Theorem C56_unexamined_file_refuted : exists o E s d,
  explore 10 o E = Ret s /\ entry_of o E [] d /\ de_type d = DtReg /\
  ~ In (de_name d) (map fst (xs_files s)) /\ xs_error s = true /\
  getErrorCode (senderReport [] [sent_all 5] (xs_failed s) 5 1) = OK.
Proof.
  exists (opts false), blind_env. eexists. exists (ent [102] DtReg).
  split; [vm_compute; reflexivity|]. split; [|split; [reflexivity|split; [|split; vm_compute; reflexivity]]].
  - eexists _, _. split; [vm_compute; reflexivity|]. split; [right; left; reflexivity|split; discriminate].
  - vm_compute. intros [H|[]]. discriminate H.
Qed.
Print Assumptions C56_unexamined_file_refuted.

(** With links followed, a directory that is also reached by a link is explored
    under one of the names only. If readdir gives the link first, the files of the
    directory are not sent under their own names, and the report says OK. *)
Theorem C56_link_first_refuted : exists o E s rel size,
  explore 10 o E = Ret s /\ wanted o E rel size /\ ~ In rel (map fst (xs_files s)) /\
  xe_lstat E (xo_root o ++ rel) = Some (FkReg, size) /\
  getErrorCode (senderReport [] [sent_all 5] (xs_failed s) 5 1) = OK.
Proof.
  exists (opts true), (link_env true). eexists. exists [100; 47; 102], 5.
  split; [vm_compute; reflexivity|]. split; [|split; [|split; vm_compute; reflexivity]].
  - exists [100; 47], (ent [102] DtReg). split; [|split; [|split; [reflexivity|split; [left; reflexivity|split; reflexivity]]]].
    + apply (ReachSub (opts true) (link_env true) [] [] (ent [100] DtDir)); [constructor| |left; reflexivity|reflexivity].
      eexists _, _. split; [vm_compute; reflexivity|]. split; [right; left; reflexivity|split; discriminate].
    + eexists _, _. split; [vm_compute; reflexivity|]. split; [left; reflexivity|split; discriminate].
  - vm_compute. intros [H|[]]. discriminate H.
Qed.
Print Assumptions C56_link_first_refuted.

(** When surplus files are to be deleted and a directory cannot be opened, its
    files count as surplus: deletion of a file that the sender has is requested. *)
Theorem C56_present_file_deleted_refuted : exists o E q0 q s rel size src,
  setPreviouslyReceivedChunks (dq_init 0 true) [old_f] = Ret (Some q0) /\
  buildQueue 10 o E q0 = Ret (Some (q, s)) /\
  xe_lstat E (xo_root o ++ rel) = Some (FkReg, size) /\
  In src (q_queue q) /\ s_name src = rel /\ s_alloc src = TO_BE_DELETED.
Proof.
  exists (opts false), shut_env. eexists _, _, _. exists [100; 47; 102], 6. eexists.
  split; [vm_compute; reflexivity|]. split; [vm_compute; reflexivity|]. split; [vm_compute; reflexivity|].
  split; [right; left; reflexivity|]. split; reflexivity.
Qed.
Print Assumptions C56_present_file_deleted_refuted.

(** An abort noticed while a directory is being read is not an error: explore
    returns true without having found the files. *)
Theorem C56_abort_refuted : exists o E s rel size,
  explore 10 o E = Ret s /\ xs_error s = false /\ wanted o E rel size /\ ~ In rel (map fst (xs_files s)).
Proof.
  exists (opts false), {| xe_opendir := xe_opendir tree_env; xe_lstat := xe_lstat tree_env;
    xe_stat := xe_stat tree_env; xe_realpath := xe_realpath tree_env; xe_abort := Nat.leb 1 |}.
  eexists. exists [97], 5.
  split; [vm_compute; reflexivity|]. split; [reflexivity|]. split; [|intros []].
  exists [], (ent [97] DtReg). split; [constructor|]. split.
  - eexists _, _. split; [vm_compute; reflexivity|]. split; [right; left; reflexivity|split; discriminate].
  - split; [reflexivity|]. split; [left; vm_compute; reflexivity|split; reflexivity].
Qed.
Print Assumptions C56_abort_refuted.
