(** C42, C43, C51, C54, C55: final reports, abort codes, buffer size. *)
From Verif Require Import Spec.ReportSpec Proofs.ReportFacts.
From Coq Require Import Lia.

(** Thread results used in the examples. *)
Definition ext (local remote eff blocks send bytes : Z) : stats :=
  {| st_hdr := 0; st_data := eff; st_effHdr := 0; st_effData := eff; st_files := 0;
     st_blocks := blocks; st_failed := 0; st_blocksSend := send; st_senderBytes := bytes;
     st_local := local; st_remote := remote; st_id := []; st_enc := 0; st_tls := false |}.

(** ** C42 *)

(** A sender's report that says OK: all bytes of all discovered files are
    effective, no directory failed, no source failed with an error, and either
    every thread ended well or at least one did and nothing at all failed. *)
Theorem C42_sender_ok fs th fd tot nd :
  codes_ok th -> codes_ok fs -> agree th ->
  getErrorCode (senderReport fs th fd tot nd) = OK ->
  zsum st_effData th = tot /\ fd = [] /\ (forall s, In s fs -> getErrorCode s = OK) /\
  ((forall t, In t th -> getErrorCode t = OK) \/
   (fs = [] /\ exists t, In t th /\ getErrorCode t = OK)).
Proof. exact (sender_ok_means fs th fd tot nd). Qed.
Print Assumptions C42_sender_ok.

Example C42_sender_ok_ex :
  getErrorCode (senderReport [] [ext OK OK 60 1 (-1) (-1); ext CONN_ERROR OK 40 1 (-1) (-1)] [] 100 1) = OK /\
  codes_ok [ext OK OK 60 1 (-1) (-1); ext CONN_ERROR OK 40 1 (-1) (-1)] /\
  agree [ext OK OK 60 1 (-1) (-1); ext CONN_ERROR OK 40 1 (-1) (-1)].
Proof.
  split; [vm_compute; reflexivity|split].
  - intros t [<-|[<-|[]]]; vm_compute; split; discriminate.
  - intros a b [<-|[<-|[]]] [<-|[<-|[]]]; cbn; tauto.
Qed.

(** "No file is reported failed" is not implied: a source left in the queue
    without an error code (it has no bytes, so the totals agree) is listed as
    failed in a report that says OK. *)
Theorem C42_failed_source_refuted :
  exists fs th, fs <> [] /\ (forall t, In t th -> getErrorCode t = OK) /\
    getErrorCode (senderReport fs th [] 100 2) = OK.
Proof.
  exists [stats_new], [ext OK OK 100 1 (-1) (-1)]. split; [discriminate|split].
  - intros t [<-|[]]; reflexivity.
  - vm_compute; reflexivity.
Qed.
Print Assumptions C42_failed_source_refuted.

(** The number of files reported: those discovered less those with a block that
    failed, each counted once. *)
Theorem C42_files fs th fd tot nd l : each_once (map st_id fs) l ->
  st_files (senderReport fs th fd tot nd) = nd - zlen l.
Proof. exact (files_reported fs th fd tot nd l). Qed.
Print Assumptions C42_files.

Example C42_files_ex :
  let b n := {| st_hdr := 0; st_data := 0; st_effHdr := 0; st_effData := 0; st_files := 0;
     st_blocks := 0; st_failed := 1; st_blocksSend := -1; st_senderBytes := -1;
     st_local := CONN_ERROR; st_remote := OK; st_id := [n]; st_enc := 0; st_tls := false |} in
  each_once (map st_id [b 97; b 98; b 97]) [[97]; [98]] /\
  st_files (senderReport [b 97; b 98; b 97] [ext OK OK 60 1 (-1) (-1)] [] 100 7) = 5.
Proof.
  split; [|vm_compute; reflexivity]. split.
  - constructor; [intros [H|[]]; discriminate H|]. constructor; [intros []|constructor].
  - intros x. cbn. tauto.
Qed.

(** ** C43 *)

(** A receiver's report that says OK: the sender's announcement arrived, as many
    blocks and (when known) bytes were received as announced, and no thread got
    an error from the sender. *)
Theorem C43_receiver_ok l : codes_ok l -> getErrorCode (receiverFinal l) = OK ->
  announced st_blocksSend l <> -1 /\ zsum st_blocks l = announced st_blocksSend l /\
  (announced st_senderBytes l <> -1 -> zsum st_effData l = announced st_senderBytes l) /\
  (forall t, In t l -> st_remote t = OK).
Proof. exact (receiver_ok_counts l). Qed.
Print Assumptions C43_receiver_ok.

Example C43_receiver_ok_ex :
  getErrorCode (receiverFinal [ext CONN_ERROR OK 60 1 (-1) (-1); ext OK OK 40 1 2 100]) = OK /\
  codes_ok [ext CONN_ERROR OK 60 1 (-1) (-1); ext OK OK 40 1 2 100].
Proof. split; [vm_compute; reflexivity|]. intros t [<-|[<-|[]]]; vm_compute; split; discriminate. Qed.

(** No thread saw an encryption error, provided the threads agree on what the
    sender announced and no thread has an error ranked above it. *)
Theorem C43_no_encryption_error l : codes_ok l -> agree l ->
  (forall t, In t l -> st_local t <= ENCRYPTION_ERROR) ->
  getErrorCode (receiverFinal l) = OK ->
  forall t, In t l -> st_local t <> ENCRYPTION_ERROR.
Proof. exact (receiver_ok_no_encryption_error l). Qed.
Print Assumptions C43_no_encryption_error.

Example C43_no_encryption_error_ex :
  getErrorCode (receiverFinal [ext ENCRYPTION_ERROR OK 60 1 2 100; ext OK OK 40 1 2 100]) = ENCRYPTION_ERROR /\
  agree [ext CONN_ERROR OK 60 1 (-1) (-1); ext OK OK 40 1 2 100] /\
  getErrorCode (receiverFinal [ext CONN_ERROR OK 60 1 (-1) (-1); ext OK OK 40 1 2 100]) = OK.
Proof.
  split; [vm_compute; reflexivity|split; [|vm_compute; reflexivity]].
  intros a b [<-|[<-|[]]] [<-|[<-|[]]]; cbn; tauto.
Qed.

(** In general an encryption error can be lost: when a later thread was told
    different totals, the generic error replaces it and is then forgiven. *)
Theorem C43_encryption_error_refuted :
  exists l t, codes_ok l /\ In t l /\ st_local t = ENCRYPTION_ERROR /\
    getErrorCode (receiverFinal l) = OK.
Proof.
  exists [ext ENCRYPTION_ERROR OK 60 1 2 100; ext OK OK 40 1 3 100], (ext ENCRYPTION_ERROR OK 60 1 2 100).
  split; [|split; [left; reflexivity|split; [reflexivity|vm_compute; reflexivity]]].
  intros t [<-|[<-|[]]]; vm_compute; split; discriminate.
Qed.
Print Assumptions C43_encryption_error_refuted.

(** ** C55 *)

(** When the threads agree on what the sender announced, the combined local and
    remote codes are the most serious of any thread, in any order. *)
Theorem C55_order_irrelevant l l' : Permutation l l' -> agree l ->
  st_local (combine_all l) = st_local (combine_all l') /\
  st_remote (combine_all l) = st_remote (combine_all l') /\
  getErrorCode (combine_all l) = getErrorCode (combine_all l').
Proof. exact (order_irrelevant l l'). Qed.
Print Assumptions C55_order_irrelevant.

Theorem C55_most_serious l : agree l -> codes_ok l ->
  worst (map st_local l) (st_local (combine_all l)) /\ worst (map st_remote l) (st_remote (combine_all l)).
Proof. exact (combined_is_worst l). Qed.
Print Assumptions C55_most_serious.

(** The counters never depend on the order. *)
Theorem C55_counters_order_irrelevant l l' : Permutation l l' ->
  st_effData (combine_all l) = st_effData (combine_all l') /\
  st_data (combine_all l) = st_data (combine_all l') /\
  st_blocks (combine_all l) = st_blocks (combine_all l') /\
  st_failed (combine_all l) = st_failed (combine_all l') /\
  st_hdr (combine_all l) = st_hdr (combine_all l').
Proof.
  exact (fun P => conj (counters_order st_effData l l' (fun _ _ => eq_refl) eq_refl P)
                 (conj (counters_order st_data l l' (fun _ _ => eq_refl) eq_refl P)
                 (conj (counters_order st_blocks l l' (fun _ _ => eq_refl) eq_refl P)
                 (conj (counters_order st_failed l l' (fun _ _ => eq_refl) eq_refl P)
                       (counters_order st_hdr l l' (fun _ _ => eq_refl) eq_refl P))))).
Qed.
Print Assumptions C55_counters_order_irrelevant.

Example C55_ex :
  agree [ext OK OK 1 1 2 9; ext CONN_ERROR ABORT 2 1 (-1) (-1)] /\
  getErrorCode (combine_all [ext OK OK 1 1 2 9; ext CONN_ERROR ABORT 2 1 (-1) (-1)]) = CONN_ERROR.
Proof. split; [|vm_compute; reflexivity]. intros a b [<-|[<-|[]]] [<-|[<-|[]]]; cbn; tauto. Qed.

(** The encryption named in either side's report is that of a thread that ended
    without an error; with no such thread, none. *)
Theorem C55_encryption fs l fd tot nd :
  let says c := (exists t, In t l /\ ended_well t /\ st_enc c = st_enc t /\ st_tls c = st_tls t) \/
    ((forall t, In t l -> ~ ended_well t) /\ st_enc c = 0 /\ st_tls c = false) in
  says (senderReport fs l fd tot nd) /\ says (receiverFinal l).
Proof. exact (encryption_reported fs l fd tot nd). Qed.
Print Assumptions C55_encryption.

Example C55_encryption_ex :
  let t e c := {| st_hdr := 0; st_data := 0; st_effHdr := 0; st_effData := 0; st_files := 0;
     st_blocks := 0; st_failed := 0; st_blocksSend := -1; st_senderBytes := -1;
     st_local := c; st_remote := OK; st_id := []; st_enc := e; st_tls := false |} in
  ended_well (t 2 OK) /\ st_enc (receiverFinal [t 1 CONN_ERROR; t 2 OK; t 0 CONN_ERROR]) = 2.
Proof. split; [split; reflexivity|vm_compute; reflexivity]. Qed.

(** When they disagree the combined code depends on the order. *)
Theorem C55_order_refuted :
  exists a b, getErrorCode (combine_all [a; b]) <> getErrorCode (combine_all [b; a]).
Proof.
  exists (ext ENCRYPTION_ERROR OK 60 1 2 100), (ext OK OK 40 1 3 100). vm_compute; discriminate.
Qed.
Print Assumptions C55_order_refuted.

(** ** C51 *)

(** A recorded abort other than a version mismatch is not replaced by version
    mismatches and not cleared by recoveries from them. *)
Theorem C51_abort_kept cur l : cur <> OK -> cur <> VERSION_MISMATCH ->
  (forall c, In (Abort c) l -> c = VERSION_MISMATCH) -> run_abort_ops cur l = cur.
Proof. exact (abort_keeps l cur). Qed.
Print Assumptions C51_abort_kept.

(** Further aborts with an error code leave the transfer aborted. *)
Theorem C51_stays_aborted cur l : cur <> OK -> cur <> VERSION_MISMATCH ->
  (forall c, In (Abort c) l -> c <> OK) ->
  run_abort_ops cur l <> OK /\ run_abort_ops cur l <> VERSION_MISMATCH.
Proof. exact (abort_stays_aborted l cur). Qed.
Print Assumptions C51_stays_aborted.

Example C51_ex : run_abort_ops OK [Abort VERSION_MISMATCH; Abort ABORTED_BY_APPLICATION;
  Abort VERSION_MISMATCH; ClearAbort; ClearAbort] = ABORTED_BY_APPLICATION.
Proof. vm_compute; reflexivity. Qed.

(** An abort message from the receiver sets whatever code it carries
    (SenderThread.cpp:853): it replaces an application abort, and with code 0 it
    clears it. *)
Theorem C51_replaced_refuted :
  run_abort_ops OK [Abort ABORTED_BY_APPLICATION; Abort PROTOCOL_ERROR] = PROTOCOL_ERROR /\
  exists c, run_abort_ops OK [Abort ABORTED_BY_APPLICATION; Abort c] = OK.
Proof. split; [vm_compute; reflexivity|exists OK; vm_compute; reflexivity]. Qed.
Print Assumptions C51_replaced_refuted.

(** ** C54 *)
Theorem C54_buffer_size c : c <= 2 ^ 31 - 4096 ->
  let b := checkAndUpdateBufferSize c in
  b mod 4096 = 0 /\ kMaxHeader <= b /\ c <= b /\ b < Z.max c kMaxHeader + 4096 /\ b < 2 ^ 31.
Proof. exact (buffer_size_ok c). Qed.
Print Assumptions C54_buffer_size.

Example C54_ex : checkAndUpdateBufferSize 5000 = 8192 /\ checkAndUpdateBufferSize 262144 = 262144 /\
  checkAndUpdateBufferSize (-1) = 8192.
Proof. repeat split; vm_compute; reflexivity. Qed.

(** The last 4095 values of the option's type overflow it: the size becomes
    negative. *)
Theorem C54_overflow_refuted : exists c, - 2 ^ 31 <= c < 2 ^ 31 /\ checkAndUpdateBufferSize c < 0.
Proof. exists (2 ^ 31 - 1). vm_compute. repeat split; congruence. Qed.
Print Assumptions C54_overflow_refuted.
