(** C14 - C16: confirmations and statistics. *)
From Verif Require Import Spec.HistorySpec Proofs.AttemptFacts.
From Coq Require Import Lia.

(** Blocks used in the examples: file number, offset, size. *)
Definition exb (seq o n : Z) : source :=
  {| s_name := [97; seq]; s_seqId := seq; s_fileSize := 1000; s_alloc := NOT_EXISTS;
     s_prevSeqId := 0; s_offset := o; s_size := n; s_failed := 0 |}.
Definition exck (blocks seq o r : Z) : checkpoint :=
  {| ck_port := 1; ck_numBlocks := blocks; ck_lastBlockSeqId := seq; ck_lastBlockOffset := o;
     ck_lastBlockReceivedBytes := r; ck_hasSeqId := true |}.
Definition exck_old (blocks r : Z) : checkpoint :=
  {| ck_port := 1; ck_numBlocks := blocks; ck_lastBlockSeqId := 0; ck_lastBlockOffset := 0;
     ck_lastBlockReceivedBytes := r; ck_hasSeqId := false |}.
Definition exhist (l : list source) : history :=
  {| hi_list := map newSource l; hi_global := false; hi_acked := 0; hi_last := None; hi_inUse := true |}.

(** ** C14 *)

(** An accepted confirmation of n blocks keeps exactly the first n, and every
    later block comes back once, the next one without its confirmed bytes. *)
Theorem C14_unconfirmed_blocks_return hi ts c g e hi' ts' ret :
  setCheckpoint hi ts c g = Ret (e, hi', ts', ret) -> e <> INVALID_CHECKPOINT ->
  exists rest, hi_list hi = hi_list hi' ++ rest /\
    Z.of_nat (length (hi_list hi')) = ck_numBlocks c /\
    come_back c rest (rev ret).
Proof. exact (checkpoint_returns hi ts c g e hi' ts' ret). Qed.
Print Assumptions C14_unconfirmed_blocks_return.

Example C14_unconfirmed_blocks_return_ex :
  exists hi' ts' a b,
    setCheckpoint (exhist [exb 1 0 100; exb 2 0 100; exb 3 0 100]) stats_new (exck 1 2 0 40) false
      = Ret (OK, hi', ts', [a; b]) /\ length (hi_list hi') = 1%nat /\
    s_offset (h_src b) = 40 /\ s_size (h_src b) = 60 /\ s_offset (h_src a) = 0.
Proof. eexists _, _, _, _. split; [vm_compute; reflexivity|repeat split]. Qed.

(** Every confirmation that can be decoded from the wire is processed without
    crashing. *)
Theorem C14_no_crash hi ts c g :
  0 <= ck_numBlocks c -> 0 <= ck_lastBlockReceivedBytes c ->
  exists x, setCheckpoint hi ts c g = Ret x.
Proof. exact (setCheckpoint_total hi ts c g). Qed.
Print Assumptions C14_no_crash.

Example C14_no_crash_ex : 0 <= ck_numBlocks (exck 7 2 0 40) /\ 0 <= ck_lastBlockReceivedBytes (exck 7 2 0 40).
Proof. cbn; lia. Qed.

(** In every run of any number of sender threads no block is ever lost or
    duplicated: the blocks queued, being sent, in a history or recorded as
    failed are exactly the blocks discovered. *)
Theorem C14_no_block_lost n l w : sn_run (sender_init n) l = Some (Ret w) ->
  Permutation (map ident (all_blocks w)) (discovered l).
Proof. exact (no_block_lost n l w). Qed.
Print Assumptions C14_no_block_lost.

Definition exrun : list sact :=
  [ADiscover (exb 1 0 100); ADiscover (exb 2 0 100); ATake 0 0 true; ATake 1 0 true;
   ASend 0 (SentAll 30); ASend 1 (SentPart WriteFailed 30 50); ALocal 1 (exck 0 2 0 20);
   ATake 0 0 true; AGlobal 0 (exck 1 2 20 10); ASend 0 (SentAll 30); ATake 1 0 true;
   ASend 1 (SentAll 31)].
Definition exfinal : option (outcome sender) := Eval vm_compute in sn_run (sender_init 2) exrun.
Definition exworld : sender :=
  Eval vm_compute in match exfinal with Some (Ret w) => w | _ => sender_init 0 end.

Example C14_no_block_lost_ex :
  sn_run (sender_init 2) exrun = Some (Ret exworld) /\ length (all_blocks exworld) = 2%nat.
Proof. split; vm_compute; reflexivity. Qed.

(** False without a bound on the bytes claimed: a receiver claiming more bytes
    than the block has is believed, and a block of negative size is queued. *)
Theorem C14_overstated_bytes_refuted :
  exists hi ts c e hi' ts' h,
    setCheckpoint hi ts c false = Ret (e, hi', ts', [h]) /\ e = OK /\ s_size (h_src h) < 0.
Proof.
  exists (exhist [exb 1 0 100]), stats_new, (exck 0 1 0 500). eexists _, _, _, _.
  split; [vm_compute; reflexivity|split; [reflexivity|vm_compute; reflexivity]].
Qed.
Print Assumptions C14_overstated_bytes_refuted.

(** False for receivers too old to name the block (before version 21): when a
    port dies, the partial bytes reported once are taken off two blocks, the
    next unconfirmed one and the one being sent, whose bytes are then never
    sent. *)
Theorem C14_old_receiver_refuted :
  exists w,
    sn_run (sender_init 1)
      [ADiscover (exb 1 0 100); ADiscover (exb 2 0 100);
       ATake 0 0 true; ASend 0 (SentAll 30); ATake 0 0 true;
       AGlobal 0 (exck_old 0 40); ASend 0 (SentAll 30)] = Some (Ret w) /\
    map (fun h => (s_offset (h_src h), s_size (h_src h))) (sn_queue w) = [(40, 60); (40, 60)].
Proof. eexists; split; [vm_compute; reflexivity|reflexivity]. Qed.
Print Assumptions C14_old_receiver_refuted.

(** ** C15 *)

(** A confirmation is refused exactly when it confirms more blocks than were
    sent, fewer than confirmed before, or a different number of bytes of the
    same block; history, statistics and queue are then unchanged. *)
Theorem C15_wrong_confirmation_refused hi ts c g :
  contradicts (hi_list hi) (hi_last hi) c <->
  setCheckpoint hi ts c g = Ret (INVALID_CHECKPOINT, hi, ts, []).
Proof. exact (contradicts_refused hi ts c g). Qed.
Print Assumptions C15_wrong_confirmation_refused.

Theorem C15_refused_changes_nothing hi ts c g hi' ts' ret :
  setCheckpoint hi ts c g = Ret (INVALID_CHECKPOINT, hi', ts', ret) ->
  hi' = hi /\ ts' = ts /\ ret = [].
Proof. exact (refused_unchanged hi ts c g hi' ts' ret). Qed.
Print Assumptions C15_refused_changes_nothing.

Example C15_wrong_confirmation_refused_ex :
  contradicts (hi_list (exhist [exb 1 0 100])) (hi_last (exhist [exb 1 0 100])) (exck 2 1 0 0) /\
  setCheckpoint (exhist [exb 1 0 100]) stats_new (exck 2 1 0 0) false
    = Ret (INVALID_CHECKPOINT, exhist [exb 1 0 100], stats_new, []).
Proof. split; [left; vm_compute; reflexivity|vm_compute; reflexivity]. Qed.

(** A confirmation naming another block than the next unconfirmed one is not
    refused, but none of its bytes are credited: the next block comes back
    whole. *)
Theorem C15_other_block_not_credited hi ts c g e hi' ts' ret next :
  setCheckpoint hi ts c g = Ret (e, hi', ts', ret) -> e <> INVALID_CHECKPOINT ->
  nth_error (hi_list hi) (Z.to_nat (ck_numBlocks c)) = Some next -> about c next = false ->
  exists later, Forall2 (shortened 0) (skipn (Z.to_nat (ck_numBlocks c)) (hi_list hi)) later /\
    rev ret = later.
Proof. exact (other_block_not_credited hi ts c g e hi' ts' ret next). Qed.
Print Assumptions C15_other_block_not_credited.

Theorem C15_other_block_refuted :
  exists hi ts c e hi' ts' ret next,
    nth_error (hi_list hi) (Z.to_nat (ck_numBlocks c)) = Some next /\
    ck_hasSeqId c = true /\ ck_lastBlockSeqId c <> s_seqId (h_src next) /\
    setCheckpoint hi ts c false = Ret (e, hi', ts', ret) /\ e = OK /\ ret <> [].
Proof.
  exists (exhist [exb 1 0 100]), stats_new, (exck 0 9 0 50). eexists _, _, _, _, _.
  split; [reflexivity|split; [reflexivity|split; [cbn; discriminate|]]].
  split; [vm_compute; reflexivity|split; [reflexivity|discriminate]].
Qed.
Print Assumptions C15_other_block_refuted.

Example C15_other_block_not_credited_ex :
  exists hi' ts' ret,
    setCheckpoint (exhist [exb 1 0 100]) stats_new (exck 0 9 0 50) false = Ret (OK, hi', ts', ret) /\
    about (exck 0 9 0 50) (newSource (exb 1 0 100)) = false.
Proof. eexists _, _, _; split; vm_compute; reflexivity. Qed.

(** A truthful confirmation can be refused: after a version mismatch was
    handled (unconfirmed blocks returned), the first partial confirmation of
    the very first block (file 0, offset 0) looks like a contradiction. *)
Theorem C15_truthful_confirmation_refuted :
  exists w hi ts,
    sn_run (sender_init 1)
      [ADiscover (exb 0 0 100); ATake 0 0 true; ASend 0 (SentPart WriteFailed 30 10);
       AReturn 0; ATake 0 0 true; ASend 0 (SentPart WriteFailed 30 60)] = Some (Ret w) /\
    sn_hist w = [hi] /\ sn_stats w = [ts] /\ sn_queue w = [] /\
    setCheckpoint hi ts (exck 0 0 0 40) false = Ret (INVALID_CHECKPOINT, hi, ts, []).
Proof.
  eexists _, _, _. split; [vm_compute; reflexivity|split; [reflexivity|split; [reflexivity|split; [reflexivity|vm_compute; reflexivity]]]].
Qed.
Print Assumptions C15_truthful_confirmation_refuted.

(** ** C16 *)

(** At every moment of every run the totals over threads equal the totals over
    blocks. *)
Theorem C16_totals n l w : sn_run (sender_init n) l = Some (Ret w) ->
  zsum st_data (sn_stats w) = zsum (fun h => st_data (h_st h)) (all_blocks w) /\
  zsum st_effData (sn_stats w) = zsum (fun h => st_effData (h_st h)) (all_blocks w) /\
  zsum st_blocks (sn_stats w) = zsum (fun h => st_blocks (h_st h)) (all_blocks w) /\
  zsum st_failed (sn_stats w) = zsum (fun h => st_failed (h_st h)) (all_blocks w).
Proof. exact (all_totals n l w). Qed.
Print Assumptions C16_totals.

Example C16_totals_ex : sn_run (sender_init 2) exrun = Some (Ret exworld) /\
  zsum st_effData (sn_stats exworld) = 200 /\ zsum st_failed (sn_stats exworld) = 2.
Proof. split; [|split]; vm_compute; reflexivity. Qed.

(** Each attempt of a thread to send a block counts once in its statistics: as a
    block, or as a failed attempt. *)
Theorem C16_attempts n l w i ts : sn_run (sender_init n) l = Some (Ret w) ->
  nth_error (sn_stats w) i = Some ts -> st_blocks ts + st_failed ts = attempts i l.
Proof. exact (attempts_counted n l w i ts). Qed.
Print Assumptions C16_attempts.

Example C16_attempts_ex : attempts 0 exrun = 2 /\ attempts 1 exrun = 2 /\
  map (fun ts => (st_blocks ts, st_failed ts)) (sn_stats exworld) = [(1, 1); (1, 1)].
Proof. split; [|split]; vm_compute; reflexivity. Qed.

(** A thread's effective data bytes are the bytes of the blocks it sent that
    were not taken back plus the partial bytes confirmed for blocks taken back.
    (Deletion entries carry no data and are excluded, see below.) *)
Theorem C16_thread_effective n l w i : files_only l -> sn_run (sender_init n) l = Some (Ret w) ->
  effective i w = sent_bytes i w + partial_bytes i (sender_init n) l.
Proof. exact (thread_effective n l w i). Qed.
Print Assumptions C16_thread_effective.

Example C16_thread_effective_ex : files_only exrun /\
  effective 0 exworld = 110 /\ sent_bytes 1 exworld = 70 /\ partial_bytes 1 (sender_init 2) exrun = 20.
Proof.
  split; [|split; [|split]]; try (vm_compute; reflexivity).
  intros s H. repeat (destruct H as [H|H]; [first [discriminate|injection H as <-; vm_compute; discriminate]|]). destruct H.
Qed.

(** A block's effective bytes are its whole original size once it is recorded
    as sent, otherwise the part already confirmed; what is left to send plus
    what is confirmed is the original block. *)
Theorem C16_block_effective n l w h : files_only l -> sn_run (sender_init n) l = Some (Ret w) ->
  In h (all_blocks w) ->
  s_offset (h_src h) + s_size (h_src h) = h_o h + h_n h /\
  st_effData (h_st h) =
    (if st_blocks (h_st h) =? 1 then h_n h else s_offset (h_src h) - h_o h) /\
  (st_blocks (h_st h) = 1 -> in_history w h /\ sent_whole h = true) /\
  (in_history w h -> sent_whole h = true -> st_blocks (h_st h) = 1) /\
  (st_blocks (h_st h) = 0 \/ st_blocks (h_st h) = 1).
Proof. exact (block_effective n l w h). Qed.
Print Assumptions C16_block_effective.

Example C16_block_effective_ex : exists h, In h (all_blocks exworld) /\
  st_blocks (h_st h) = 1 /\ st_effData (h_st h) = 100 /\ s_offset (h_src h) = 30.
Proof.
  eexists; split; [unfold all_blocks; vm_compute; right; left; reflexivity|vm_compute; repeat split].
Qed.

(** If the threads' effective bytes add up to the size of everything
    discovered, then every block is recorded as sent or had all its bytes
    confirmed (no receiver having claimed more than a block's size). *)
Theorem C16_complete_means_sent n l w : files_only l -> sn_run (sender_init n) l = Some (Ret w) ->
  (forall h, In h (all_blocks w) -> 0 <= s_size (h_src h)) ->
  zsum st_effData (sn_stats w) = zsum h_n (all_blocks w) ->
  forall h, In h (all_blocks w) -> (in_history w h /\ sent_whole h = true) \/ s_size (h_src h) = 0.
Proof. exact (complete_means_sent n l w). Qed.
Print Assumptions C16_complete_means_sent.

Example C16_complete_means_sent_ex :
  (forall h, In h (all_blocks exworld) -> 0 <= s_size (h_src h)) /\
  zsum st_effData (sn_stats exworld) = zsum h_n (all_blocks exworld).
Proof.
  split; [|vm_compute; reflexivity]. intros h H.
  unfold all_blocks in H; vm_compute in H. repeat (destruct H as [<-|H]; [vm_compute; discriminate|]). destruct H.
Qed.

(** The final consistency check of the statistics (with full reporting) passes
    when some thread ended well, or when no history refuses to give back its
    unconfirmed blocks. *)
Theorem C16_final_check_passes n l w : sn_run (sender_init n) l = Some (Ret w) ->
  (forall o, In o (sn_flight w) -> o = None) ->
  ((exists t, In t (sn_stats w) /\ getErrorCode t = OK) \/
   (forall hi, In hi (sn_hist w) -> ~ return_refused hi)) ->
  exists tr fa ths, finish w = Ret (sn_stats w, tr, fa, ths).
Proof. exact (finish_returns n l w). Qed.
Print Assumptions C16_final_check_passes.

Example C16_final_check_passes_ex :
  (forall o, In o (sn_flight exworld) -> o = None) /\
  exists t, In t (sn_stats exworld) /\ getErrorCode t = OK.
Proof.
  split.
  - intros o H; vm_compute in H. repeat (destruct H as [<-|H]; [reflexivity|]). destruct H.
  - eexists; split; [left; reflexivity|vm_compute; reflexivity].
Qed.

(** Otherwise it can abort the process: the last confirmation was partial for
    the first block (file 0, offset 0), later blocks were sent, and the
    connection could not be made again. *)
Theorem C16_final_check_refuted :
  exists w,
    sn_run (sender_init 1)
      [ADiscover (exb 0 0 100); ATake 0 0 true; ASend 0 (SentPart WriteFailed 30 60);
       ALocal 0 (exck 0 0 0 50); ATake 0 0 true; ASend 0 (SentAll 30); AError 0 CONN_ERROR]
      = Some (Ret w) /\ finish w = Crash.
Proof. eexists; split; vm_compute; reflexivity. Qed.
Print Assumptions C16_final_check_refuted.

(** The report given to the application is taken before unconfirmed blocks are
    returned, so after a failure its effective bytes include bytes that were
    taken back: they differ from the totals over blocks. *)
Theorem C16_report_after_failure_refuted :
  exists w rep tr fa ths,
    sn_run (sender_init 1)
      [ADiscover (exb 1 0 100); ATake 0 0 true; ASend 0 (SentAll 30); AError 0 CONN_ERROR]
      = Some (Ret w) /\
    finish w = Ret (rep, tr, fa, ths) /\
    zsum st_effData rep = 100 /\ zsum st_effData tr + zsum st_effData fa = 0.
Proof.
  eexists _, _, _, _, _. split; [vm_compute; reflexivity|split; [vm_compute; reflexivity|split; reflexivity]].
Qed.
Print Assumptions C16_report_after_failure_refuted.

(** Deletion entries: opening one does not clear its error code, so once taken
    back it is never again seen as sent, and the number of blocks counted grows
    with every resend. *)
Definition exdel : source :=
  {| s_name := [97]; s_seqId := 1; s_fileSize := 0; s_alloc := TO_BE_DELETED;
     s_prevSeqId := 0; s_offset := 0; s_size := 0; s_failed := 0 |}.
Theorem C16_deletion_count_refuted :
  exists w,
    sn_run (sender_init 1)
      [ADiscover exdel; ATake 0 0 true; ASend 0 (SentAll 30); ALocal 0 (exck 0 1 0 0);
       ATake 0 0 true; ASend 0 (SentAll 30); ALocal 0 (exck 0 1 0 0);
       ATake 0 0 true; ASend 0 (SentAll 30)] = Some (Ret w) /\
    length (all_blocks w) = 1%nat /\ zsum st_blocks (sn_stats w) = 2.
Proof. eexists; split; [vm_compute; reflexivity|split; vm_compute; reflexivity]. Qed.
Print Assumptions C16_deletion_count_refuted.
