(** C24: what is read of a block of a source file. *)
From Verif Require Import Model.FileSource Spec.FileSourceSpec Proofs.BytesFacts Proofs.FileSourceFacts.

(** The file still contains the block: the bytes sent are those of the block;
    only a failing read stops before; each read brings at least one byte. *)
Theorem C24_block_sent rs f buf size off direct : 0 <= off -> 0 <= size ->
  buffer_ok (zlen buf) direct -> answers_ok rs f buf (fs_open size off direct) ->
  off + size <= zlen f -> (direct = true -> answers_direct rs f buf (fs_open size off direct)) ->
  match send_loop rs f buf (fs_open size off direct) [] with
  | Ret (SAll sent) => sent = slice f off size /\ zlen sent = size
  | Ret (SError sent) => prefix_ok f off size sent /\ In PErr rs
  | Ret (SPending sent) => prefix_ok f off size sent /\ zlen rs <= zlen sent
  | Crash | Undef => False
  end.
Proof. exact (send_all rs f buf size off direct). Qed.
Print Assumptions C24_block_sent.

(** Whatever happened to the file: never wrong data, never outside the buffer. *)
Theorem C24_never_wrong rs f buf size off direct : 0 <= off -> 0 <= size ->
  buffer_ok (zlen buf) direct -> answers_ok rs f buf (fs_open size off direct) ->
  match send_loop rs f buf (fs_open size off direct) [] with
  | Ret (SAll sent) => sent = slice f off size /\ zlen sent = size
  | Ret (SError sent) => prefix_ok f off size sent
  | Ret (SPending sent) => prefix_ok f off size sent /\ zlen rs <= zlen sent
  | Crash => direct = true
  | Undef => False
  end.
Proof. exact (send_never_wrong rs f buf size off direct). Qed.
Print Assumptions C24_never_wrong.

(** The file shrank, ordinary reads: an error, after at most [size] reads. *)
Theorem C24_shrunk_is_error rs f buf size off : 0 <= off -> 0 <= size -> zlen f < off + size -> 0 < size ->
  buffer_ok (zlen buf) false -> answers_ok rs f buf (fs_open size off false) ->
  size <= zlen rs ->
  exists sent, send_loop rs f buf (fs_open size off false) [] = Ret (SError sent) /\
    prefix_ok f off size sent /\ zlen sent < size.
Proof. exact (shrunk_error rs f buf size off). Qed.
Print Assumptions C24_shrunk_is_error.

(** advanceOffset: what was confirmed and what is read after it make up the block. *)
Theorem C24_advance (f : list Z) s n : 0 <= n <= fs_size s -> 0 <= fs_offset s ->
  slice f (fs_offset s) n ++ slice f (fs_offset (fs_advance s n)) (fs_size (fs_advance s n))
  = slice f (fs_offset s) (fs_size s).
Proof. exact (advance_rest f s n). Qed.
Print Assumptions C24_advance.

(** Ten bytes from offset 3 in reads of 2, 1, 4 and 3 bytes into a buffer of 4. *)
Example C24_short_reads :
  send_loop [PN 2; PN 1; PN 4; PN 3] [0; 1; 2; 3; 4; 5; 6; 7; 8; 9; 10; 11; 12; 13] [0; 0; 0; 0]
    (fs_open 10 3 false) [] = Ret (SAll [3; 4; 5; 6; 7; 8; 9; 10; 11; 12]).
Proof. vm_compute. reflexivity. Qed.
Example C24_short_reads_ok :
  buffer_ok 4 false /\
  answers_ok [PN 2; PN 1; PN 4; PN 3] [0; 1; 2; 3; 4; 5; 6; 7; 8; 9; 10; 11; 12; 13] [0; 0; 0; 0]
    (fs_open 10 3 false).
Proof. vm_compute. repeat split; try congruence; intros; discriminate. Qed.
(** A direct read: offset 5000 is not on a block boundary. *)
Example C24_direct_read :
  let f := repeat 1 (Z.to_nat 5000) ++ [2; 3; 4; 5] ++ repeat 6 100 in
  send_loop [PN (zlen f - 4096)] f (repeat 0 (Z.to_nat 4096)) (fs_open 4 5000 true) [] = Ret (SAll [2; 3; 4; 5]) /\
  buffer_ok 4096 true.
Proof. vm_compute. repeat split; congruence. Qed.

(** The file shrank while direct reads were in use: the block starts at 5000,
    the file now ends at 4500. pread from 4096 gives 404 bytes, fewer than the
    904 in front of the block, so the size is negative, no error is set, and the
    WDT_CHECK in SenderThread.cpp:369 aborts the process. *)
Theorem C24_direct_shrunk_refuted : exists rs f buf size off,
  buffer_ok (zlen buf) true /\ answers_ok rs f buf (fs_open size off true) /\
  answers_direct rs f buf (fs_open size off true) /\
  send_loop rs f buf (fs_open size off true) [] = Crash.
Proof.
  exists [PN 404], (repeat 1 (Z.to_nat 4500)), (repeat 0 (Z.to_nat 4096)), 1000, 5000.
  vm_compute. repeat split; try congruence; try (intros; discriminate). right; reflexivity.
Qed.
Print Assumptions C24_direct_shrunk_refuted.

(** The same when a direct read returns less than a disk block although the file
    is whole. *)
Theorem C24_direct_short_refuted : exists rs f buf size off, off + size <= zlen f /\
  buffer_ok (zlen buf) true /\ answers_ok rs f buf (fs_open size off true) /\
  send_loop rs f buf (fs_open size off true) [] = Crash.
Proof.
  exists [PN 512], (repeat 1 (Z.to_nat 6000)), (repeat 0 (Z.to_nat 4096)), 1000, 5000.
  vm_compute. repeat split; try congruence; try (intros; discriminate).
Qed.
Print Assumptions C24_direct_short_refuted.
