(** C49: names and the destination directory. *)
From Coq Require Import Lia.
From Verif Require Import Proofs.PathOpenFacts.
Import ListNotations.
Open Scope Z_scope.

(** C49. A name that does not climb above where it starts (in particular one with no
    component ".."): every path handed to the operating system is the destination
    directory or below, and the file opened or deleted is strictly below when the
    name goes down at all. Whatever the answers of the operating system, the options
    and the state of the file. *)
Theorem C49_confined : forall cwd o e seek st b r calls,
  fo_root o <> [] -> ~ In 0 (fo_root o) -> tame (bd_fileName b) ->
  receive_open o e seek st b [] = Ret (r, calls) ->
  Forall (fun c => at_or_below (resolve cwd (fo_root o)) (resolve cwd (call_path c)) /\
                   (on_file c = true -> proper (bd_fileName b) ->
                    strictly_below (resolve cwd (fo_root o)) (resolve cwd (call_path c)))) calls.
Proof. exact confined. Qed.
Print Assumptions C49_confined.
Theorem C49_plain : forall name, ~ In [46; 46] (components (cstr name)) -> tame name.
Proof. exact plain_tame. Qed.
Print Assumptions C49_plain.
(** "d//e/f" below "/srv", with the directories made. *)
Example C49_confined_case :
  let name := [100; 47; 47; 101; 47; 102] in
  tame name /\ proper name /\
  receive_open srv willing true SAbsent (named name NOT_EXISTS) [] =
    Ret (OK, [FMkdir [47; 115; 114; 118; 47; 100; 47]; FMkdir [47; 115; 114; 118; 47; 100; 47; 47];
              FMkdir [47; 115; 114; 118; 47; 100; 47; 47; 101; 47];
              FOpen [47; 115; 114; 118; 47; 100; 47; 47; 101; 47; 102] true true false]) /\
  resolve [] [47; 115; 114; 118; 47; 100; 47; 47; 101; 47; 102] = [[102]; [101]; [100]; [115; 114; 118]].
Proof.
  split; [apply plain_tame; vm_compute; intuition discriminate|]. split; [reflexivity|]. split; vm_compute; reflexivity.
Qed.

(** No well formed name crashes the receiver, unless the allocation status in the
    header is none (5, 6 or 7) and log based resumption is on ... *)
Theorem C49_no_crash : forall o e seek st b,
  good_name (bd_fileName b) -> 0 <= bd_alloc b <= 4 \/ fo_log_based o = false ->
  exists r calls, receive_open o e seek st b [] = Ret (r, calls).
Proof. exact no_crash. Qed.
Print Assumptions C49_no_crash.
Example C49_no_crash_case : good_name [46; 46; 47; 97] /\ ~ good_name [97; 47].
Proof. split; [repeat split; discriminate|]. intros (_ & _ & H). apply H. reflexivity. Qed.
(** ... and every other name does: the empty one, and one that begins or ends with a
    slash. The header with the name decodes. *)
Theorem C49_crash_refuted : forall o e seek st b,
  ~ good_name (bd_fileName b) -> bd_alloc b <> TO_BE_DELETED -> st <> SFailed ->
  fo_skip_writes o = false -> receive_open o e seek st b [] = Crash.
Proof. exact crash. Qed.
Print Assumptions C49_crash_refuted.
Example C49_crash_refuted_case :
  decodeHeader 31 [0; 0; 0; 0; 0; 0] = Ret (Some (named [] NOT_EXISTS, [])) /\
  decodeHeader 31 [2; 47; 97; 0; 0; 0; 0; 1] = Ret (Some (named [47; 97] EXISTS_CORRECT_SIZE, [])).
Proof. vm_compute. auto. Qed.
(** And so does a header with status 5 to 7 when the log is kept. *)
Theorem C49_status_refuted : exists o e seek b,
  decodeHeader 31 [1; 97; 0; 0; 0; 0; 5] = Ret (Some (b, [])) /\ good_name (bd_fileName b) /\
  receive_open o e seek SAbsent b [] = Crash.
Proof.
  exists {| fo_root := [47; 115; 114; 118]; fo_skip_writes := false; fo_overwrite := false; fo_resumption := true;
            fo_log_based := true; fo_delete_extra := false |}, willing, true, (named [97] 5).
  split; [vm_compute; reflexivity|]. split; [repeat split; discriminate|]. vm_compute. reflexivity.
Qed.
Print Assumptions C49_status_refuted.

(** A file is emptied only when it is being created, and only with overwrite or
    resumption on; without them creating a file that exists fails. *)
Theorem C49_kept : forall o e seek st b r calls p creat trunc excl,
  receive_open o e seek st b [] = Ret (r, calls) -> In (FOpen p creat trunc excl) calls ->
  (trunc = true -> creat = true /\ (fo_overwrite o = true \/ fo_resumption o = true)) /\
  (creat = true -> fo_overwrite o = false -> fo_resumption o = false -> excl = true).
Proof. exact only_when_allowed. Qed.
Print Assumptions C49_kept.
(** A block accepted for writing has its own file open, as the last thing done, and
    positioned at its offset. *)
Theorem C49_opened : forall o e seek st b calls,
  receive_open o e seek st b [] = Ret (OK, calls) -> fo_skip_writes o = false -> bd_alloc b <> TO_BE_DELETED ->
  (0 < bd_offset b -> seek = true) /\
  exists l c u v, calls = l ++ [FOpen (below_root (fo_root o) (bd_fileName b)) c u v] /\ 0 <= fe_ret e (length l).
Proof. exact accepted_open. Qed.
Print Assumptions C49_opened.
(** "f" below "/srv" with neither option. *)
Example C49_kept_case :
  let o := {| fo_root := [47; 115; 114; 118]; fo_skip_writes := false; fo_overwrite := false; fo_resumption := false;
              fo_log_based := false; fo_delete_extra := false |} in
  receive_open o willing true SAbsent (named [102] NOT_EXISTS) [] =
    Ret (OK, [FOpen [47; 115; 114; 118; 47; 102] true false true]) /\
  below_root (fo_root o) [102] = [47; 115; 114; 118; 47; 102].
Proof. split; vm_compute; reflexivity. Qed.

(** A name may climb: whatever the destination directory, and whatever file outside
    or inside of it, there is a name with which the receiver deletes that file
    (delete_extra_files being on), and opens it for writing. *)
Theorem C49_anywhere_refuted : forall cwd o ts,
  fo_root o <> [] -> ~ In 0 (fo_root o) -> fo_skip_writes o = false -> ts <> [] -> (forall x, In x ts -> word x) ->
  exists name, forall e seek b, bd_fileName b = name ->
    (bd_alloc b = TO_BE_DELETED -> fo_delete_extra o = true ->
       exists p, receive_open o e seek SAbsent b [] = Ret (OK, [FUnlink p]) /\ resolve cwd p = rev ts) /\
    (bd_alloc b = EXISTS_CORRECT_SIZE -> 0 <= fe_ret e 0 -> bd_offset b = 0 ->
       exists p, receive_open o e seek SAbsent b [] = Ret (OK, [FOpen p false false false]) /\ resolve cwd p = rev ts).
Proof. exact anywhere. Qed.
Print Assumptions C49_anywhere_refuted.
(** "../a" from a header: deletes "/a". *)
Example C49_anywhere_case :
  decodeHeader 31 [4; 46; 46; 47; 97; 0; 0; 0; 0; 4] = Ret (Some (named [46; 46; 47; 97] TO_BE_DELETED, [])) /\
  receive_open srv willing true SAbsent (named [46; 46; 47; 97] TO_BE_DELETED) [] =
    Ret (OK, [FUnlink [47; 115; 114; 118; 47; 46; 46; 47; 97]]) /\
  resolve [] [47; 115; 114; 118; 47; 46; 46; 47; 97] = [[97]] /\ word [97].
Proof. vm_compute. intuition discriminate. Qed.
