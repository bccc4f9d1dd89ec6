(** C23: writing the pieces of a block to the destination file. *)
From Verif Require Import Model.DiskIO Spec.DiskSpec Proofs.DiskFacts.

Theorem C23_write_reported sync rs w data w' rs' : 0 <= fw_pos w ->
  fw_write false sync rs w data = (WOut OK w', rs') ->
  holds_at (fw_file w') (fw_pos w) data /\
  unchanged_outside (fw_file w) (fw_file w') (fw_pos w) (fw_pos w + zlen data) /\
  grown_only (fw_file w) (fw_file w') (fw_pos w) (fw_pos w + zlen data) /\
  fw_pos w' = fw_pos w + zlen data /\ fw_total w' = fw_total w + zlen data.
Proof. exact (write_reported sync rs w data w' rs'). Qed.
Print Assumptions C23_write_reported.

(** Whatever is reported, and at every moment before, nothing outside the range
    has changed. *)
Theorem C23_elsewhere_unchanged skip sync rs w data e w' rs' : 0 <= fw_pos w ->
  fw_write skip sync rs w data = (WOut e w', rs') \/ fw_write skip sync rs w data = (WPending w', rs') ->
  unchanged_outside (fw_file w) (fw_file w') (fw_pos w) (fw_pos w + zlen data) /\
  grown_only (fw_file w) (fw_file w') (fw_pos w) (fw_pos w + zlen data).
Proof. exact (write_elsewhere skip sync rs w data e w' rs'). Qed.
Print Assumptions C23_elsewhere_unchanged.

(** All the pieces of a block, from the opening of the file. *)
Theorem C23_block_written syncs rs f off size pieces w' rs' : 0 <= off ->
  fw_writes syncs rs (fw_open f off size) pieces = (WOut OK w', rs') ->
  holds_at (fw_file w') off (concat pieces) /\
  unchanged_outside f (fw_file w') off (off + zlen (concat pieces)) /\
  grown_only f (fw_file w') off (off + zlen (concat pieces)) /\
  fw_total w' = zlen (concat pieces).
Proof. exact (block_written syncs rs f off size pieces w' rs'). Qed.
Print Assumptions C23_block_written.

(** A short write, an interrupt and an empty write before the rest. *)
Example C23_short_writes :
  fw_writes [] [WN 1; WIntr; WN 0; WN 2; WN 2] (fw_open [1; 2; 3; 4; 5; 6; 7; 8; 9] 2 5) [[30; 40; 50]; [60; 70]]
  = (WOut OK {| fw_file := [1; 2; 30; 40; 50; 60; 70; 8; 9]; fw_pos := 7; fw_total := 5; fw_dataSize := 5 |}, []).
Proof. vm_compute. reflexivity. Qed.
(** Past the end of the file: the gap reads as zeros. *)
Example C23_beyond_end :
  fw_write false true [WN 1; WN 1] (fw_open [1; 2] 4 2) [50; 60]
  = (WOut OK {| fw_file := [1; 2; 0; 0; 50; 60]; fw_pos := 6; fw_total := 2; fw_dataSize := 2 |}, []).
Proof. vm_compute. reflexivity. Qed.
(** A failing write leaves what was written so far and is reported. *)
Example C23_failure :
  fw_write false true [WN 1; WErr] (fw_open [1; 2; 3; 4] 1 2) [50; 60]
  = (WOut FILE_WRITE_ERROR {| fw_file := [1; 50; 3; 4]; fw_pos := 2; fw_total := 0; fw_dataSize := 2 |}, []).
Proof. vm_compute. reflexivity. Qed.

(** With the option skip_writes success is reported although nothing is in the
    file: the first theorem needs the option to be off. *)
Theorem C23_skip_writes_refuted : exists w data w',
  fw_write true true [] w data = (WOut OK w', []) /\ ~ holds_at (fw_file w') (fw_pos w) data.
Proof.
  exists (fw_open [] 0 1), [7], (fw_add (fw_open [] 0 1) 1). split; [reflexivity|].
  intros H. specialize (H 0 ltac:(vm_compute; split; congruence)). discriminate H.
Qed.
Print Assumptions C23_skip_writes_refuted.
