(** C70: the directories a file needs are made, whatever the receiver's threads do at once. *)
From Coq Require Import ZArith List Bool.
From Verif.Model Require Import DirTree.
From Verif.Spec Require Import DirTreeSpec.
From Verif.Proofs Require Import DirTreeFacts.
Import ListNotations.
Open Scope Z_scope.

(** C70: no thread fails as long as nobody removes directories meanwhile, even if what
    createdDirs_ says is out of date. *)
Theorem C70_never_fails : forall excl t known rs l s i,
  sound_tree t -> no_clash excl t rs -> drun excl (dstart t known rs) (map DStep l) = Some s -> ~ thread_at s i PErr.
Proof. exact never_fails_all. Qed.
Print Assumptions C70_never_fails.
(** C70: when all threads have ended, every file is there. *)
Theorem C70_all_made : forall excl t known rs l s,
  sound_tree t -> no_clash excl t rs -> drun excl (dstart t known rs) (map DStep l) = Some s -> at_rest excl s ->
  forall i r, nth_error rs i = Some r -> thread_at s i POk /\ In (target r) (tr_files (ds_tree s)).
Proof. exact all_made_all. Qed.
Print Assumptions C70_all_made.
(** C70: they end, after at most so many steps, whatever happens. *)
Theorem C70_ends : forall excl t known rs l s,
  drun excl (dstart t known rs) l = Some s -> (steps l <= list_sum (map steps_of rs))%nat.
Proof. exact ends_all. Qed.
Print Assumptions C70_ends.
(* The receiver believes 1/2 to be there, but both 1 and 1/2 were removed. *)
Example C70_all_made_ex :
  let t := {| tr_dirs := [[7]]; tr_files := [[7; 7]] |} in
  exists s, drun true (dstart t [[1; 2]] [([1; 2], 9); ([1; 2; 3], 8)])
    (map DStep [0; 1; 0; 1; 0; 1; 0; 1; 0; 1; 0; 1; 0; 1; 1; 1; 1]%nat) = Some s /\
    map cr_pc (ds_threads s) = [POk; POk] /\
    tr_dirs (ds_tree s) = [[1; 2; 3]; [1; 2]; [1]; [7]] /\ tr_files (ds_tree s) = [[1; 2; 3; 8]; [1; 2; 9]; [7; 7]].
Proof. eexists. vm_compute. repeat split. Qed.
Example C70_never_fails_ex :
  let t := {| tr_dirs := [[7]]; tr_files := [[7; 7]] |} in
  sound_tree t /\ no_clash true t [([1; 2], 9); ([1; 2; 3], 8)].
Proof. exact clash_ex. Qed.
Example C70_ends_ex : list_sum (map steps_of [([1; 2], 9); ([1; 2; 3], 8)]) = 39%nat.
Proof. reflexivity. Qed.

(** C70: if a directory is removed while a thread is at it, it can fail, for good. *)
Theorem C70_removed_refuted : ~ (forall t known rs l s i,
  sound_tree t -> no_clash true t rs -> drun true (dstart t known rs) l = Some s -> ~ thread_at s i PErr).
Proof. exact removed_refuted. Qed.
Print Assumptions C70_removed_refuted.

(** C70: a thread that succeeded has its file, in its directories, even if others remove
    (empty) directories all the time. *)
Theorem C70_made : forall excl t known rs l s i r,
  sound_tree t -> drun excl (dstart t known rs) l = Some s -> nth_error rs i = Some r -> thread_at s i POk ->
  In (target r) (tr_files (ds_tree s)) /\ (forall p, starts_with p (fst r) -> in_dirs (ds_tree s) p).
Proof. exact made_all. Qed.
Print Assumptions C70_made.
(** C70: nothing else is made: the files are those there before and those of the threads that
    succeeded, the directories those there before and those asked for. *)
Theorem C70_only : forall excl t known rs l s,
  sound_tree t -> drun excl (dstart t known rs) l = Some s ->
  sound_tree (ds_tree s) /\
  (forall p, In p (tr_files (ds_tree s)) <-> In p (tr_files t) \/
     exists i r, nth_error rs i = Some r /\ thread_at s i POk /\ p = target r) /\
  (forall p, In p (tr_dirs (ds_tree s)) -> In p (tr_dirs t) \/ exists r, In r rs /\ starts_with p (fst r)).
Proof. exact only_all. Qed.
Print Assumptions C70_only.
(** C70: and no directory goes away. *)
Theorem C70_kept : forall excl t known rs l s,
  drun excl (dstart t known rs) (map DStep l) = Some s -> incl (tr_dirs t) (tr_dirs (ds_tree s)).
Proof. exact kept_all. Qed.
Print Assumptions C70_kept.
(** C70: a file where a directory is wanted is never replaced: the thread does not succeed. *)
Theorem C70_in_the_way : forall excl t known rs l s i r p,
  sound_tree t -> drun excl (dstart t known rs) l = Some s ->
  nth_error rs i = Some r -> starts_with p (fst r) -> In p (tr_files t) -> ~ thread_at s i POk.
Proof. exact in_way_all. Qed.
Print Assumptions C70_in_the_way.
Example C70_in_the_way_ex :
  exists s, drun false (dstart {| tr_dirs := []; tr_files := [[1]] |} [] [([1; 2], 9)])
    (map DStep [0; 0; 0; 0; 0; 0; 0; 0]%nat) = Some s /\
  map cr_pc (ds_threads s) = [PErr] /\ ds_tree s = {| tr_dirs := []; tr_files := [[1]] |}.
Proof. eexists. vm_compute. repeat split. Qed.
(** C70: without overwriting, no thread takes a file that was there, and no two the same. *)
Theorem C70_excl : forall t known rs l s,
  sound_tree t -> drun true (dstart t known rs) l = Some s ->
  (forall i r, nth_error rs i = Some r -> thread_at s i POk -> ~ In (target r) (tr_files t)) /\
  (forall i j r q, nth_error rs i = Some r -> nth_error rs j = Some q -> thread_at s i POk -> thread_at s j POk ->
     target r = target q -> i = j).
Proof. exact excl_all. Qed.
Print Assumptions C70_excl.
Example C70_excl_ex :
  exists s, drun true (dstart {| tr_dirs := []; tr_files := [] |} [] [([], 9); ([], 9)]) (map DStep [1; 0]%nat) = Some s /\
  map cr_pc (ds_threads s) = [PErr; POk].
Proof. eexists. vm_compute. repeat split. Qed.

(** C70: what createdDirs_ says is so, if it was so and nothing is in the way. *)
Theorem C70_known : forall excl t known rs l s p,
  sound_tree t -> no_clash excl t rs -> (forall q, In q known -> in_dirs t q) ->
  drun excl (dstart t known rs) (map DStep l) = Some s -> In p (ds_known s) -> in_dirs (ds_tree s) p.
Proof. exact known_all. Qed.
Print Assumptions C70_known.
Example C70_known_ex :
  exists s, drun true (dstart {| tr_dirs := [[1]]; tr_files := [] |} [[1]] [([1; 2], 9)]) (map DStep [0; 0; 0; 0; 0]%nat) = Some s /\
  ds_known s = [[1; 2]; [1]] /\ tr_dirs (ds_tree s) = [[1; 2]; [1]] /\ map cr_pc (ds_threads s) = [POk].
Proof. eexists. vm_compute. repeat split. Qed.
(** C70: a file in the way gets into createdDirs_ as a directory. *)
Theorem C70_known_refuted : ~ (forall excl t known rs l s p,
  sound_tree t -> (forall q, In q known -> in_dirs t q) ->
  drun excl (dstart t known rs) (map DStep l) = Some s -> In p (ds_known s) -> in_dirs (ds_tree s) p).
Proof. exact known_refuted. Qed.
Print Assumptions C70_known_refuted.

(** C70: if createdDirs_ holds only directories that exist and nobody removes any, no thread
    ever makes directories by force or opens its file twice. *)
Theorem C70_first_time : forall excl t known rs l s i, sound_tree t -> no_clash excl t rs ->
  (forall p, In p known -> in_dirs t p) -> drun excl (dstart t known rs) (map DStep l) = Some s ->
  ~ thread_at s i (POpen true) /\ (forall pass k, thread_at s i (PMk pass k) \/ thread_at s i (PIns pass k) -> pass = 0%nat).
Proof. exact first_time. Qed.
Print Assumptions C70_first_time.
Example C70_first_time_ex :
  let t := {| tr_dirs := [[7]]; tr_files := [[7; 7]] |} in
  exists s, drun true (dstart t [[7]] [([7; 2], 9)]) (map DStep [0; 0; 0]%nat) = Some s /\ thread_at s 0 (PIns 0 2).
Proof. eexists. split; [vm_compute; reflexivity|]. eexists. split; reflexivity. Qed.
