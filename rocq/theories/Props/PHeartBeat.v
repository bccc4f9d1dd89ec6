(** C68: heart beats. *)
From Coq Require Import ZArith List Bool.
Import ListNotations.
From Verif Require Import Model.HeartBeat Spec.HeartBeatSpec Proofs.HeartBeatFacts.
Open Scope Z_scope.

(** ---- C68 ---- *)
(** Unless the receiver aborts, heart beats are invisible: the sender gets every answer
    whole and in order, whenever it reads heart beats and however many arrive in between;
    reading them never meets anything else; and nobody sees an abort. *)
Theorem C68_answers en T a b l c : no_abort l -> Forall is_answer (answers l) ->
  hrun en T (conn_new a b) l = Some (Ret c) ->
  Forall (fun r => r = OK \/ r = SOCKET_READ_ERROR) (cn_results c) /\
  (exists pending, answers l = rev (cn_taken c) ++ pending /\ (length pending <= 1)%nat /\
     (cn_ph c <> PWait -> pending = [])) /\
  (cn_ph c = PSend -> Forall is_beat (cn_chan c)) /\
  cn_ph c <> PChecked true.
Proof. exact (answers_arrive en T a b l c). Qed.
Print Assumptions C68_answers.

(** A sender that waits for an answer gets it, or an abort sent instead, after skipping
    the heart beats. *)
Theorem C68_waiting en T a b l c (abort : bool) d : no_abort l -> Forall is_answer (answers l) ->
  hrun en T (conn_new a b) l = Some (Ret c) -> cn_ph c = PWait -> cn_answered c = false ->
  (abort = false -> is_answer d) ->
  exists n c', hrun en T c ((if abort then EAbort d else EAnswer d) :: repeat ECmd n) = Some (Ret c') /\
    cn_ph c' = PGot /\ cn_taken c' = (if abort then ABORT_CMD :: d else d) :: cn_taken c.
Proof. exact (waiting_reads en T a b l c abort d). Qed.
Print Assumptions C68_waiting.

(** A sender still sending blocks, whose write fails because the receiver aborted: it
    finds the abort if it has read exactly the heart beats sent before it, and not if one
    is unread. *)
Theorem C68_abort en T a b l c d : quiet l -> In (EAbort d) l -> hrun en T (conn_new a b) l = Some (Ret c) ->
  0 <= cn_beats c /\
  exists k c', 0 <= k <= cn_beats c + 1 + zlen d /\
    cn_chan c = skipn (Z.to_nat k) (repeat HEART_BEAT_CMD (Z.to_nat (cn_beats c)) ++ ABORT_CMD :: d) /\
    hrun en T c [ECheck] = Some (Ret c') /\
    (k < cn_beats c -> cn_ph c' = PChecked false) /\
    (k = cn_beats c -> cn_ph c' = PChecked true /\ cn_chan c' = d).
Proof. exact (abort_checked en T a b l c d). Qed.
Print Assumptions C68_abort.

(** So with heart beats on, an abort is never found once the receiver was busy for more
    than a fifth of the time-out of the sender, before ten time-outs have passed. *)
Theorem C68_abort_lost T a b l c t : 0 < T -> int_ok (T * 10) = true -> quiet l ->
  In (EBeat t) l -> ms (T / 5 + 1) <= t - a < ms (2 ^ 31) ->
  (forall now got, In (ERead now got) l -> 0 <= now - b <= ms (T * 10)) ->
  hrun true T (conn_new a b) (l ++ [ECheck]) = Some (Ret c) -> cn_ph c = PChecked false.
Proof. exact (abort_lost T a b l c t). Qed.
Print Assumptions C68_abort_lost.
Theorem C68_abort_refuted : exists l c d, quiet l /\ In (EAbort d) l /\
  hrun true 5000 (conn_new 0 0) (l ++ [ECheck]) = Some (Ret c) /\ cn_ph c = PChecked false.
Proof. exact abort_hidden. Qed.
Print Assumptions C68_abort_refuted.

(** And reading heart beats may swallow the abort; the error this gives is ignored. *)
Theorem C68_swallowed_refuted : exists l c d, quiet l /\ In (EAbort d) l /\ cn_beats c = 0 /\
  hrun true 5000 (conn_new 0 0) (l ++ [ECheck]) = Some (Ret c) /\ cn_ph c = PChecked false /\ cn_results c = [PROTOCOL_ERROR].
Proof. exact abort_swallowed. Qed.
Print Assumptions C68_swallowed_refuted.

(** If the receiver processes something at least every [D] nanoseconds, heart beats follow
    each other within a fifth of the time-out, a millisecond and [D]; so a sender waiting
    for the answer does not time out when that is less than its time-out. Nor are they
    more frequent than needed. *)
Theorem C68_pace timeout D nows start : 0 <= timeout < 2 ^ 31 -> 0 <= D -> ms (timeout / 5 + 1) + D < ms (2 ^ 31) ->
  neighbours (fun u v => u <= v <= u + D) (start :: nows) ->
  let sentt := start :: beat_times true timeout start nows in
  neighbours (fun u v => v - u < ms (timeout / 5 + 1) + D) sentt /\
  last nows start - last sentt start < ms (timeout / 5 + 1).
Proof. exact (beats_close timeout D nows start). Qed.
Print Assumptions C68_pace.
Theorem C68_apart timeout nows last : 0 <= timeout < 2 ^ 31 -> neighbours Z.le (last :: nows) ->
  neighbours (fun u v => ms (timeout / 5 + 1) <= v - u) (last :: beat_times true timeout last nows).
Proof. exact (fun T => beats_apart timeout T nows last). Qed.
Print Assumptions C68_apart.

(** Reading heart beats, which blocks for at most the time-out, takes at most a tenth of
    the time of the sender. *)
Theorem C68_reads T nows start stop : 0 <= T -> int_ok (T * 10) = true -> neighbours Z.le (start :: nows) ->
  start <= stop -> (forall x, In x nows -> x <= stop) ->
  neighbours (fun u v => ms (T * 10 + 1) <= v - u) (start :: read_times T start nows) /\
  10 * (ms T * zlen (read_times T start nows)) <= stop - start.
Proof. exact (reads_few T nows start stop). Qed.
Print Assumptions C68_reads.

(** Heart beats are read into the buffer used for the data, and do no harm there. *)
Theorem C68_data turns buf : send_data buf turns = concat (map snd turns).
Proof. exact (data_sent turns buf). Qed.
Print Assumptions C68_data.

(** A sender of an older version, or told not to use them, is sent none. *)
Theorem C68_off T a b l c version opt : version < 29 \/ opt = false ->
  hrun (sender_beats version opt) T (conn_new a b) l = Some (Ret c) -> cn_beats c = 0.
Proof. exact (off_none T a b l c version opt). Qed.
Print Assumptions C68_off.

(** From a time-out of 2.5 days on the product overflows; below, nothing is undefined. *)
Theorem C68_overflow_refuted : read_beats true 214748365 0 0 0 [] = Undef.
Proof. reflexivity. Qed.
Print Assumptions C68_overflow_refuted.
Theorem C68_defined T last now got inp : 0 <= T <= 214748364 -> exists r, read_beats true T last now got inp = Ret r.
Proof. exact (read_defined_below T last now got inp). Qed.
Print Assumptions C68_defined.

(** Two heart beats while sending, one read, one while waiting, an error report, then more
    blocks and DONE. *)
Example C68_answers_example :
  let l := [EBeat 2000000000; EBeat 2500000000; EBeat 50500000000; ERead 51000000000 1; EDone; EBeat 52000000000;
            EAnswer [69; 3; 0; 1; 2]; ECmd; ECmd; ECmd; EResume; EBeat 60000000000; EDone; EAnswer [68]; ECmd; ECmd] in
  no_abort l /\ Forall is_answer (answers l) /\
  exists c, hrun true 5000 (conn_new 0 0) l = Some (Ret c) /\ rev (cn_taken c) = [[69; 3; 0; 1; 2]; [68]] /\ cn_beats c = 4.
Proof.
  split; [intros b J; repeat (destruct J as [J|J]; [discriminate|]); contradiction|].
  split; [repeat constructor; do 2 eexists; split; reflexivity || discriminate|].
  eexists. split; [vm_compute; reflexivity|]. split; reflexivity.
Qed.
Example C68_waiting_example : exists c, hrun true 5000 (conn_new 0 0) [EBeat 2000000000; EDone; EBeat 4000000000] = Some (Ret c) /\
  cn_ph c = PWait /\ cn_answered c = false /\ zlen (cn_chan c) = 2.
Proof. eexists. split; [vm_compute; reflexivity|]. repeat split. Qed.
(** All heart beats were read, so the abort is found. *)
Example C68_abort_example : let l := [EBeat 2000000000; ERead 51000000000 1; EAbort [1; 2]] in quiet l /\
  exists c c', hrun true 5000 (conn_new 0 0) l = Some (Ret c) /\ hrun true 5000 c [ECheck] = Some (Ret c') /\ cn_ph c' = PChecked true.
Proof.
  split; [split; intros J; repeat (destruct J as [J|J]; [discriminate|]); contradiction|].
  do 2 eexists. split; [vm_compute; reflexivity|]. split; [vm_compute; reflexivity|reflexivity].
Qed.
Example C68_lost_example : let l := [EBeat 900000000; EBeat 1001000000; ERead 1100000000 0; EAbort [1; 2]] in quiet l /\
  In (EBeat 1001000000) l /\ ms (5000 / 5 + 1) <= 1001000000 < ms (2 ^ 31) /\ 0 <= 1100000000 <= ms (5000 * 10) /\
  exists c, hrun true 5000 (conn_new 0 0) (l ++ [ECheck]) = Some (Ret c).
Proof.
  split; [split; intros J; repeat (destruct J as [J|J]; [discriminate|]); contradiction|].
  split; [right; left; reflexivity|]. split; [split; [discriminate|reflexivity]|]. split; [split; discriminate|].
  eexists. vm_compute. reflexivity.
Qed.
(** A receiver that takes 3 s for each block. *)
Example C68_pace_example : beat_times true 5000 0 [3000000000; 3500000000; 6000000000] = [3000000000; 6000000000] /\
  neighbours (fun u v => u <= v <= u + 3000000000) [0; 3000000000; 3500000000; 6000000000] /\
  ms (5000 / 5 + 1) + 3000000000 < ms 5000.
Proof. split; [vm_compute; reflexivity|]. split; [cbn; intuition discriminate|reflexivity]. Qed.
Example C68_reads_example : read_times 5000 0 [1000000000; 50001000000; 50002000000; 101000000000] = [50001000000; 101000000000] /\
  int_ok (5000 * 10) = true /\ neighbours Z.le [0; 1000000000; 50001000000; 50002000000; 101000000000].
Proof. split; [vm_compute; reflexivity|]. split; [reflexivity|cbn; intuition discriminate]. Qed.
Example C68_data_example : send_data [0; 0; 0; 0] [(Some [72; 72; 72], [1; 2]); (None, [3]); (Some [72], [4; 5; 6; 7])] = [1; 2; 3; 4; 5; 6; 7].
Proof. reflexivity. Qed.
Example C68_off_example : sender_beats 28 true = false /\ sender_beats 29 true = true /\
  exists c, hrun (sender_beats 28 true) 5000 (conn_new 0 0) [EBeat 2000000000; EDone; EAnswer [68]; ECmd] = Some (Ret c).
Proof. repeat split. eexists. vm_compute. reflexivity. Qed.
