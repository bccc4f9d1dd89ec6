(** Property C09: merging received pieces and computing the missing ones. *)
From Verif Require Import Proofs.IntervalFacts.

(** C09: after merging, the pieces are sorted with a gap between neighbours and
    cover the same bytes. *)
Theorem C09_merge_exact : forall l, Forall wf_interval l ->
  separated (mergeChunks l) /\ Forall wf_interval (mergeChunks l) /\
  forall x, covered (mergeChunks l) x <-> covered l x.
Proof. exact merge_spec. Qed.
Print Assumptions C09_merge_exact.

Example C09_merge_exact_example :
  mergeChunks [ {| iv_start := 30; iv_end := 40 |}; {| iv_start := 0; iv_end := 10 |};
                {| iv_start := 10; iv_end := 20 |}; {| iv_start := 5; iv_end := 7 |} ]
  = [ {| iv_start := 0; iv_end := 20 |}; {| iv_start := 30; iv_end := 40 |} ].
Proof. reflexivity. Qed.

(** C09: the result does not depend on how the sorting routine orders pieces of
    equal start. *)
Theorem C09_merge_any_sort : forall l l',
  Forall nonempty_interval l -> Permutation l' l -> sorted_by_start l' ->
  merge_sorted l' = mergeChunks l.
Proof. exact merge_any_sort. Qed.
Print Assumptions C09_merge_any_sort.

Example C09_merge_any_sort_example :
  let l := [ {| iv_start := 0; iv_end := 9 |}; {| iv_start := 0; iv_end := 4 |} ] in
  merge_sorted l = mergeChunks l /\ merge_sorted (rev l) = mergeChunks l /\
  mergeChunks l = [ {| iv_start := 0; iv_end := 9 |} ].
Proof. repeat split. Qed.

(** C09: the missing pieces are exactly the bytes of the file not received. *)
Theorem C09_remaining_exact : forall l size,
  separated l -> Forall wf_interval l -> Forall (fun c => iv_end c <= size) l ->
  exists r, getRemainingChunks l size = Ret r /\
    Forall nonempty_interval r /\ ascending r /\
    (forall x, covered r x <-> 0 <= x < size /\ ~ covered l x).
Proof. exact remaining_exact. Qed.
Print Assumptions C09_remaining_exact.

(** C09: without the assumption that pieces lie inside the file: also the gaps
    before pieces beyond the end are reported. *)
Theorem C09_remaining_general : forall l size,
  separated l -> Forall wf_interval l ->
  exists r, getRemainingChunks l size = Ret r /\
    Forall nonempty_interval r /\ ascending r /\
    (forall x, covered r x <->
       0 <= x /\ ~ covered l x /\ (x < size \/ exists c, In c l /\ x < iv_start c)).
Proof. exact remaining_spec. Qed.
Print Assumptions C09_remaining_general.

Example C09_remaining_example :
  getRemainingChunks [ {| iv_start := 5; iv_end := 20 |}; {| iv_start := 30; iv_end := 40 |} ] 50
  = Ret [ {| iv_start := 0; iv_end := 5 |}; {| iv_start := 20; iv_end := 30 |};
          {| iv_start := 40; iv_end := 50 |} ] /\
  getRemainingChunks [ {| iv_start := 5; iv_end := 20 |}; {| iv_start := 30; iv_end := 40 |} ] 10
  = Ret [ {| iv_start := 0; iv_end := 5 |}; {| iv_start := 20; iv_end := 30 |} ].
Proof. split; reflexivity. Qed.

(** C09: received plus missing bytes make up the file. *)
Theorem C09_remaining_total : forall l size r,
  separated l -> Forall wf_interval l -> Forall (fun c => iv_end c <= size) l -> 0 <= size ->
  getRemainingChunks l size = Ret r ->
  getTotalChunkSize l + getTotalChunkSize r = size.
Proof. exact remaining_total. Qed.
Print Assumptions C09_remaining_total.

(** C09: a list announced by a peer is not validated; computing what is missing
    still returns for every such list. *)
Theorem C09_remaining_returns : forall l size, exists r, getRemainingChunks l size = Ret r.
Proof. exact (fun l size => remaining_never_crashes l 0 size). Qed.
Print Assumptions C09_remaining_returns.

(** C09: ... but for a list that is not merged the answer can contain bytes
    already received. *)
Theorem C09_unmerged_list_refuted : exists l size r x,
  Forall wf_interval l /\ getRemainingChunks l size = Ret r /\
  covered l x /\ covered r x.
Proof. exact unmerged_witness. Qed.
Print Assumptions C09_unmerged_list_refuted.
