(** C65: the life of a Sender or Receiver object. *)
From Coq Require Import ZArith List.
Import ListNotations.
From Verif Require Import Model.Life Spec.LifeSpec Proofs.LifeFacts.

(** ---- C65 ---- *)
Theorem C65_safe cfg n l m : reach cfg n true l -> polite cfg l m ->
  lmove cfg l m = None \/ exists l', lmove cfg l m = Some (Ret l').
Proof. exact (no_crash cfg n l m). Qed.
Print Assumptions C65_safe.

Theorem C65_status cfg n l m l' : reach cfg n true l -> polite cfg l m -> lmove cfg l m = Some (Ret l') ->
  (stage (lf_st l) <= stage (lf_st l'))%nat.
Proof. exact (forwards cfg n l m l'). Qed.
Print Assumptions C65_status.

Theorem C65_answers cfg n l : reach cfg n true l ->
  (times is_ok (lf_log l) <= 1)%nat /\ (times is_first (lf_log l) <= 1)%nat /\ times is_not (lf_log l) = 0%nat /\
  forall c r, In (c, r) (lf_log l) -> is_report r = true ->
    all_joined cfg l /\ lf_st l = ThreadsJoined /\ times is_first (lf_log l) = 1%nat.
Proof. exact (answers cfg n l). Qed.
Print Assumptions C65_answers.

(** Every call returns, whatever the order in which threads and callers go on. *)
Theorem C65_return cfg n l : reach cfg n true l -> exists bound, forall ms l',
  Forall (fun m => is_call m = false) ms -> lrun cfg l ms = Some (Ret l') ->
  (length ms <= bound)%nat /\
  ((forall m, is_call m = false -> lmove cfg l' m = None) -> forall c p, nth_error (lf_pcs l') c = Some p -> p = CIdle).
Proof. exact (all_return cfg n l). Qed.
Print Assumptions C65_return.

(** A Sender is started at most once, however it is called. *)
Theorem C65_one_start cfg n d l : lc_recv cfg = false -> reach cfg n d l -> (times is_ok (lf_log l) <= 1)%nat.
Proof. exact (one_start cfg n d l). Qed.
Print Assumptions C65_one_start.

(** However it is called, the lock of finish() is held by the one caller that is inside,
    if any. *)
Theorem C65_lock cfg n d l c : reach cfg n d l ->
  (lf_lock l = Some c <-> exists p, nth_error (lf_pcs l) c = Some p /\ inside p = true).
Proof. exact (lock_held cfg n d l c). Qed.
Print Assumptions C65_lock.

(** finish() while another thread is in start(). *)
Theorem C65_race_refuted : lrun snd3 (lf_new snd3 2) (MStart 0 :: go 0 1 ++ MFinish 1 :: go 1 4) = Some Crash.
Proof. exact race_finish. Qed.
Print Assumptions C65_race_refuted.

(** With two phases and no progress reports finish() then returns a report before the
    threads were started, and they are left running under the status THREADS_JOINED. *)
Theorem C65_unjoined_refuted : exists l, lrun snd2 (lf_new snd2 2)
    (MStart 0 :: go 0 3 ++ MDir :: go 0 1 ++ MFinish 1 :: go 1 7 ++ go 0 4) = Some (Ret l) /\
  lf_log l = [(0%nat, RStart OK); (1%nat, RFirst)] /\ lf_st l = ThreadsJoined /\ lf_work l = [TRun; TRun].
Proof. exact race_lost. Qed.
Print Assumptions C65_unjoined_refuted.

(** start() of a Receiver by two threads. *)
Theorem C65_two_starts_refuted : lrun rcv3 (lf_new rcv3 2) (MStart 0 :: MStart 1 :: go 0 3 ++ go 1 3) = Some Crash.
Proof. exact race_start. Qed.
Print Assumptions C65_two_starts_refuted.

(** The first finish() of a Sender and the following ones can give different codes, in
    both directions: the first uses the sources and directories that failed and the
    number of bytes, the others only the codes of the threads. *)
Theorem C65_code_refuted :
  (exists fs th fd tot nd, getErrorCode (senderReport fs th fd tot nd) = OK /\ getErrorCode (combine_all th) = CONN_ERROR) /\
  (exists fs th fd tot nd, getErrorCode (senderReport fs th fd tot nd) = BYTE_SOURCE_READ_ERROR /\ getErrorCode (combine_all th) = OK).
Proof. exact codes_differ. Qed.
Print Assumptions C65_code_refuted.

(** From its second transfer on a Receiver that runs for ever has the status of one that
    was not started while its threads are running. *)
Theorem C65_forever n v : vreach n v ->
  (forall m, vmove v m = None \/ exists v', vmove v m = Some (Ret v')) /\
  ((exists i, nth_error (fv_work v) i = Some TRun) -> fv_st v = match fv_round v with O => Ongoing | _ => NotStarted end) /\
  ((0 < fv_round v)%nat -> fv_st v <> Ongoing).
Proof. exact (forever_status n v). Qed.
Print Assumptions C65_forever.

(** Two callers start and finish a Sender with two threads: the second start() is
    refused, both calls of finish() return after everything was joined. *)
Example C65_run : exists l, lrun snd3 (lf_new snd3 2)
    (started ++ MStart 1 :: MGo 1 :: MFinish 0 :: MFinish 1 :: go 0 2 ++ ended ++ go 0 5 ++ MProg :: go 0 1 ++ go 1 2) = Some (Ret l) /\
  rev (lf_log l) = [(0%nat, RStart OK); (1%nat, RStart ALREADY_EXISTS); (0%nat, RFirst); (1%nat, RAgain)] /\
  lf_work l = [TJoined; TJoined] /\ lf_dir l = TJoined /\ lf_prog l = TJoined /\ lf_st l = ThreadsJoined.
Proof.
  exists {| lf_st := ThreadsJoined; lf_work := [TJoined; TJoined]; lf_dir := TJoined; lf_prog := TJoined; lf_lock := None;
            lf_pcs := [CIdle; CIdle];
            lf_log := [(1%nat, RAgain); (0%nat, RFirst); (1%nat, RStart ALREADY_EXISTS); (0%nat, RStart OK)] |}.
  split; [vm_compute; reflexivity|]. repeat split.
Qed.
(** A Receiver. *)
Example C65_receiver : exists l, lrun rcv3 (lf_new rcv3 1)
    (MStart 0 :: go 0 6 ++ [MPast 0; MPast 1; MDone 0; MDone 1; MFinish 0] ++ go 0 6 ++ MProg :: go 0 1) = Some (Ret l) /\
  rev (lf_log l) = [(0%nat, RStart OK); (0%nat, RFirst)] /\ lf_prog l = TJoined.
Proof.
  exists {| lf_st := ThreadsJoined; lf_work := [TJoined; TJoined]; lf_dir := TNone; lf_prog := TJoined; lf_lock := None;
            lf_pcs := [CIdle]; lf_log := [(0%nat, RFirst); (0%nat, RStart OK)] |}.
  split; [vm_compute; reflexivity|]. repeat split.
Qed.
(** finish() without start(). *)
Example C65_not_started : exists l, lrun snd3 (lf_new snd3 1) (MFinish 0 :: go 0 2) = Some (Ret l) /\ lf_log l = [(0%nat, RNot)].
Proof.
  exists {| lf_st := NotStarted; lf_work := []; lf_dir := TNone; lf_prog := TNone; lf_lock := None;
            lf_pcs := [CIdle]; lf_log := [(0%nat, RNot)] |}.
  split; vm_compute; reflexivity.
Qed.
(** A Receiver with one thread in its second transfer. *)
Example C65_second : exists v, vreach 1 v /\ fv_work v = [TRun] /\ fv_st v = NotStarted.
Proof. exact second_transfer. Qed.
