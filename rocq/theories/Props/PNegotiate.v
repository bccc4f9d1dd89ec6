(** C62: the threads of a sender settle a version mismatch once and then agree.
    C63: which protocol versions survive the initialisation. *)
From Coq Require Import String.
From Verif Require Import Spec.NegotiateSpec Model.Uri.
From Verif Require Import Proofs.NegotiateMainFacts Proofs.NegotiateRestFacts Proofs.NegotiateWitness Proofs.InitVersionFacts.
Open Scope string_scope.
Open Scope Z_scope.

(** Whatever peers and scheduler do, no check of processVersionMismatch, of the barrier or
    of the funnel fails but one: nobody has an offer it can use. *)
Theorem C62_checks : forall cs hon n v s, nreach cs hon n v s -> nint cs s None ->
  exists i t, nth_error (g_thr s) i = Some t /\ n_pc t = PWork WCollect /\ forall u, In u (g_thr s) -> n_neg u <= 0.
Proof. exact checks. Qed.
Print Assumptions C62_checks.
Example C62_checks_case : nreach true anybody 2 12 crashing /\ nint true crashing None.
Proof. exact (conj crashing_reach crashing_crash). Qed.

(** With receivers that follow the protocol, of whatever versions, none fails. *)
Theorem C62_no_crash : forall cs n v s, nreach cs real_receiver n v s -> ~ nint cs s None.
Proof. exact no_crash. Qed.
Print Assumptions C62_no_crash.
Example C62_no_crash_case : nreach true real_receiver 2 12 worked /\ map n_neg (g_thr worked) = [11; -1].
Proof. exact (conj worked_reach eq_refl). Qed.

(** A receiver that offers a version the sender does not support stops the process of a
    sender with two threads; one that offers version 0 stops any. *)
Theorem C62_check_refuted :
  (exists s, nreach true anybody 2 12 s /\ g_offers s = [5] /\ nint true s None) /\
  (exists s, nreach true anybody 1 12 s /\ g_offers s = [0] /\ nint true s None).
Proof.
  exact (conj (ex_intro _ crashing (conj crashing_reach (conj eq_refl crashing_crash)))
              (ex_intro _ zero (conj zero_reach (conj eq_refl zero_crash)))).
Qed.
Print Assumptions C62_check_refuted.

(** Threads that exchange data all run the version of the sender. *)
Theorem C62_same_version : forall cs hon n v s t,
  nreach cs hon n v s -> In t (g_thr s) -> talking t -> n_ver t = g_version s.
Proof. exact same_version. Qed.
Print Assumptions C62_same_version.
Example C62_same_version_case : nreach true real_receiver 2 12 talked /\ Forall talking (g_thr talked) /\ map n_ver (g_thr talked) = [11; 11].
Proof. split; [exact talked_reach|]. split; [|reflexivity]. vm_compute. repeat constructor. Qed.

(** That version is the one it started with, or one that was offered, supported and not
    newer. *)
Theorem C62_version : forall cs hon n v s, nreach cs hon n v s ->
  g_version s = v \/ (In (g_version s) (g_offers s) /\ 10 <= g_version s <= v).
Proof. exact version_from. Qed.
Print Assumptions C62_version.
Example C62_version_case : nreach true real_receiver 2 12 talked /\ g_version talked = 11 /\ g_offers talked = [11].
Proof. exact (conj talked_reach (conj eq_refl eq_refl)). Qed.

(** It changes only from the first one, and to what every thread with an offer was
    offered. *)
Theorem C62_unanimous : forall cs hon n v s s',
  nreach cs hon n v s -> nstep cs hon s (Some s') -> g_version s' <> g_version s ->
  g_version s = v /\ In (g_version s') (g_offers s') /\ forall t, In t (g_thr s') -> 0 < n_neg t -> n_neg t = g_version s'.
Proof. exact unanimous. Qed.
Print Assumptions C62_unanimous.
Example C62_unanimous_case : nreach true real_receiver 2 12 before /\ nstep true real_receiver before (Some after)
  /\ g_version before = 12 /\ g_version after = 11.
Proof. exact (conj before_reach (conj before_after (conj eq_refl eq_refl))). Qed.

(** Once settled it stays settled, with the same verdict and the same version, and no
    thread gets to the barrier again. *)
Theorem C62_once : forall cs hon n v s s',
  nreach cs hon n v s -> settled s -> nsteps cs hon s s' ->
  settled s' /\ g_version s' = g_version s /\ g_status s' = g_status s.
Proof. exact once. Qed.
Print Assumptions C62_once.
Example C62_once_case : nreach true real_receiver 2 12 ended /\ settled ended /\ nsteps true real_receiver ended talked.
Proof. exact (conj ended_reach (conj eq_refl ended_talked)). Qed.
Theorem C62_one_round : forall cs hon n v s i t,
  nreach cs hon n v s -> settled s -> nth_error (g_thr s) i = Some t -> n_pc t <> PHit.
Proof. exact one_round. Qed.
Print Assumptions C62_one_round.
Example C62_one_round_case : nreach true real_receiver 2 12 talked /\ settled talked /\ nth_error (g_thr talked) 1 = Some second.
Proof. exact (conj talked_reach (conj eq_refl talked_second)). Qed.

(** The verdict: failed with the version unchanged, or resolved with an offered one. *)
Theorem C62_verdict : forall cs hon n v s, nreach cs hon n v s -> settled s ->
  (g_status s = VFailed /\ g_version s = v) \/
  (g_status s = VResolved /\ In (g_version s) (g_offers s) /\ 10 <= g_version s <= v).
Proof. exact settled_how. Qed.
Print Assumptions C62_verdict.
Example C62_verdict_case : (nreach true real_receiver 2 12 ended /\ settled ended /\ g_status ended = VResolved)
  /\ (nreach true real_receiver 2 12 failing /\ settled failing /\ g_status failing = VFailed).
Proof. exact (conj (conj ended_reach (conj eq_refl eq_refl)) (conj failing_reach (conj eq_refl eq_refl))). Qed.

(** After a failure nobody exchanges data any more. *)
Theorem C62_failed : forall cs hon n v s t,
  nreach cs hon n v s -> settled s -> g_status s = VFailed -> In t (g_thr s) -> ~ talking t.
Proof. exact failed. Qed.
Print Assumptions C62_failed.
Example C62_failed_case : nreach true real_receiver 2 12 failing /\ settled failing /\ g_status failing = VFailed
  /\ map n_neg (g_thr failing) = [11; 10].
Proof. exact (conj failing_reach (conj eq_refl (conj eq_refl eq_refl))). Qed.

(** When the others learn that it was resolved, the abort code no longer says so. *)
Theorem C62_cleared : forall cs hon n v s s',
  nreach cs hon n v s -> nstep cs hon s (Some s') -> ~ settled s -> settled s' -> g_status s' = VResolved ->
  g_abort s' <> VERSION_MISMATCH.
Proof. exact cleared. Qed.
Print Assumptions C62_cleared.
Example C62_cleared_case : nreach true real_receiver 2 12 last /\ nstep true real_receiver last (Some ended)
  /\ f_status (g_fun last) = FProgress /\ settled ended /\ g_status ended = VResolved.
Proof. exact (conj last_reach (conj last_ended (conj eq_refl (conj eq_refl eq_refl)))). Qed.

(** Left to themselves the threads stop after a bounded number of steps; then each of
    them exchanges data, or is gone, or waits at the barrier for one that exchanges
    data. *)
Theorem C62_settles : forall cs hon n v s k s', nreach cs hon n v s -> nrun cs k s s' -> (k <= 40 * n)%nat.
Proof. exact settles. Qed.
Print Assumptions C62_settles.
Example C62_settles_case : nreach true real_receiver 2 12 worked /\ nrun true 5 worked ended.
Proof. exact (conj worked_reach work_run). Qed.
Theorem C62_rest : forall cs hon n v s i t,
  nreach cs hon n v s -> at_rest cs s -> nth_error (g_thr s) i = Some t ->
  talking t \/ gone t \/ (held s i /\ exists u, In u (g_thr s) /\ talking u).
Proof. exact rest. Qed.
Print Assumptions C62_rest.
Example C62_rest_case : nreach true real_receiver 2 12 holding /\ at_rest true holding /\ held holding 0.
Proof. exact (conj holding_reach (conj holding_rest eq_refl)). Qed.

(** If the two versions agree on footers, every thread has the right footer type. *)
Theorem C62_footer : forall cs hon n v s t,
  nreach cs hon n v s -> In t (g_thr s) -> footer_for cs v = footer_for cs (g_version s) ->
  n_footer t = footer_for cs (g_version s).
Proof. exact footer_right. Qed.
Print Assumptions C62_footer.
Example C62_footer_case : nreach true real_receiver 2 12 worked /\ map n_footer (g_thr worked) = [true; true]
  /\ footer_for true 12 = footer_for true (g_version worked).
Proof. exact (conj worked_reach (conj eq_refl eq_refl)). Qed.

(** If not, a thread that learns of the new version from another one keeps the old
    footer type: it sends checksums in a version without them. *)
Theorem C62_footer_refuted : exists s t, nreach true real_receiver 2 12 s /\ In t (g_thr s) /\ talking t /\
  n_ver t = 11 /\ footer_for true (n_ver t) = false /\ n_footer t = true.
Proof. exact footer_wrong. Qed.
Print Assumptions C62_footer_refuted.

(** ** C63 *)

(** A sender whose request has a version of at most 0 stops the process, valid or not;
    for any other it is ready with the negotiated version if nothing else is wrong. *)
Theorem C63_sender : forall code v dir ports host, in_i32 v ->
  (sender_init code v dir ports host = Crash <-> v <= 0) /\
  (0 < v -> exists c, sender_init code v dir ports host = Ret (c, if v <? 10 then 0 else Z.min 32 v) /\
     (c = OK <-> code = OK /\ dir = true /\ ports = true /\ host = true)).
Proof. exact sender_version. Qed.
Print Assumptions C63_sender.
Example C63_sender_case : in_i32 40 /\ sender_init OK 40 true true true = Ret (OK, 32).
Proof. split; [unfold in_i32; split; [discriminate|reflexivity]|reflexivity]. Qed.

(** A receiver checks first; only version 0 gets through to the failing check. *)
Theorem C63_receiver : forall code v dir ports, in_i32 v ->
  (receiver_init code v dir ports = Crash <-> code = OK /\ dir = true /\ ports = true /\ v = 0) /\
  (forall w, receiver_init code v dir ports = Ret (OK, w) <->
     code = OK /\ dir = true /\ ports = true /\ 0 < v /\ w = if v <? 10 then 0 else Z.min 32 v).
Proof. exact receiver_version. Qed.
Print Assumptions C63_receiver.
Example C63_receiver_case : receiver_init OK 31 true true = Ret (OK, 31) /\ receiver_init OK 0 true true = Crash
  /\ receiver_init OK (-1) true true = Ret (INVALID_REQUEST, -1).
Proof. exact (conj eq_refl (conj eq_refl eq_refl)). Qed.

(** What a sender that is ready runs: a version that exists, or 0. *)
Theorem C63_usable : forall code v dir ports host w,
  sender_init code v dir ports host = Ret (OK, w) -> w = 0 \/ 10 <= w <= 32.
Proof. exact init_usable. Qed.
Print Assumptions C63_usable.
Example C63_usable_case : sender_init OK 11 true true true = Ret (OK, 11).
Proof. exact eq_refl. Qed.

(** Version 0 does happen: a request for version 5 is accepted with it. *)
Theorem C63_zero_refuted : sender_init OK 5 true true true = Ret (OK, 0) /\ receiver_init OK 5 true true = Ret (OK, 0).
Proof. exact (conj eq_refl eq_refl). Qed.
Print Assumptions C63_zero_refuted.

(** There is a URL that is accepted and stops the sender's process, and one whose version
    is cut down to 32 bits. *)
Theorem C63_url_refuted :
  (exists r, parseRequest (bytes_of "wdt://h:22?num_ports=1&dir=/d&recpv=0") = Ret r /\ r_error r = OK /\ request_init r = Crash) /\
  (exists r, parseRequest (bytes_of "wdt://h:22?num_ports=1&dir=/d&recpv=4294967296") = Ret r /\ r_error r = OK /\ request_init r = Crash) /\
  (exists r, parseRequest (bytes_of "wdt://h:22?num_ports=1&dir=/d&recpv=4294967307") = Ret r /\ r_error r = OK /\ request_init r = Ret (OK, 11)).
Proof. exact url_cases. Qed.
Print Assumptions C63_url_refuted.
