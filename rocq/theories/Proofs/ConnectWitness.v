(** Attempts to connect for the examples. *)
From Verif Require Import Model.Connect Spec.ConnectSpec Proofs.ConnectFacts.
From Verif Require Import Model.Uri.

Definition opts (ty ab : Z) : copts := {| co_connect := 1000; co_read := 5; co_abort := ab; co_type := ty |}.
Definition new_socket : cstate := {| cs_fd := -1; cs_now := 0; cs_tr := [] |}.
Definition quiet (after res : Z) : pollans := {| po_abort := false; po_after := after; po_res := res; po_intr := false |}.
Definition an_addr (fd err : Z) (polls : list pollans) (soerr : Z) (reads : list ioans) : addr :=
  {| ad_fd := fd; ad_nonblock := true; ad_err := err; ad_polls := polls; ad_opt := true; ad_soerr := soerr;
     ad_block := true; ad_reads := reads |}.
(** Refused after 30 ms; of a family without sockets; up after 450 ms. *)
Definition refused : addr := an_addr 7 EINPROGRESS [quiet 30 1; quiet 30 1; quiet 30 1] 111 [].
Definition no_family : addr := an_addr (-1) 0 [] 0 [].
Definition slow : addr := an_addr 8 EINPROGRESS [quiet 450 1; quiet 250 1; quiet 50 1] 0 [].
(** Never answers; up at once. *)
Definition silent (reads : list ioans) : addr :=
  an_addr 7 EINPROGRESS [quiet 100000 1; quiet 100000 1; quiet 100000 1; quiet 100000 1; quiet 100000 1; quiet 100000 1] 0 reads.
Definition at_once : addr := an_addr 9 0 [] 0 [].
Definition waits_1ms : ioans := {| io_ret := -1; io_again := true; io_dt := 1; io_abort := false |}.

Definition some_fail : list addr := [refused; no_family; slow; at_once].
Lemma some_fail_run : connect (opts ENC_NONE 200) (Some some_fail) new_socket
  = Ret (Some (OK, {| cs_fd := 8; cs_now := 480;
       cs_tr := [COpen 7; CMode 7 false; CPoll 7 200; CClose 7;
                 COpen 8; CMode 8 false; CPoll 8 200; CPoll 8 200; CPoll 8 200; CMode 8 true] |})).
Proof. vm_compute. reflexivity. Qed.
Lemma some_fail_sane : Forall (sane 0) some_fail.
Proof.
  assert (S : forall a, -1 <=? ad_fd a = true -> forallb (fun p => 0 <=? po_after p) (ad_polls a) = true ->
    ad_reads a = [] -> sane 0 a).
  { intros a A B C. split; [now apply Z.leb_le|]. rewrite C. split; [|constructor].
    apply Forall_forall. intros p H. rewrite forallb_forall in B. apply Z.leb_le. exact (B p H). }
  repeat constructor; try (apply S; reflexivity); try (intros X; discriminate X).
Qed.

(** A time-out on one address ends the attempt: the others are not tried. *)
Lemma rest_untried : exists o l code s',
  0 < co_abort o /\ connect o (Some l) new_socket = Ret (Some (code, s'))
  /\ code <> OK /\ (exists a, In a l /\ up o a) /\ Forall (sane 1) l.
Proof.
  exists (opts ENC_NONE 200), [silent []; at_once]. eexists. eexists.
  split; [reflexivity|]. split; [vm_compute; reflexivity|]. split; [discriminate|]. split.
  - exists at_once. split; [right; now left|]. split; [discriminate|]. split; [reflexivity|]. split; [now left|reflexivity].
  - repeat constructor; intros X; discriminate X.
Qed.
(** With GCM a time-out is followed by asking the descriptor for a tag, again and
    again, until the read time-out. *)
Lemma tag_awaited : exists o l code s',
  0 < co_abort o /\ connect o (Some l) new_socket = Ret (Some (code, s'))
  /\ cs_now s' - cs_now new_socket > Z.of_nat (length l) * co_connect o.
Proof.
  exists (opts ENC_AES128_GCM 200), [silent [waits_1ms; waits_1ms; waits_1ms; waits_1ms; waits_1ms]]. eexists. eexists.
  split; [reflexivity|]. split; [vm_compute; reflexivity|]. reflexivity.
Qed.
(** With a negative interval between checks for aborts, ::poll has no time-out. *)
Lemma interval_negative : exists o l code s',
  co_type o = ENC_NONE /\ connect o (Some l) new_socket = Ret (Some (code, s'))
  /\ cs_now s' - cs_now new_socket > Z.of_nat (length l) * co_connect o.
Proof.
  exists (opts ENC_NONE (-1)), [silent []]. eexists. eexists.
  split; [reflexivity|]. split; [vm_compute; reflexivity|]. reflexivity.
Qed.
Definition no_timeouts : copts := {| co_connect := 1000; co_read := 0; co_abort := 0; co_type := ENC_AES128_GCM |}.
Lemma lively_case : Forall (lively {| co_connect := 2; co_read := 5; co_abort := 1; co_type := ENC_NONE |})
    [refused; no_family; at_once; slow; silent []] /\ cs_fd new_socket < 0.
Proof.
  split; [|reflexivity].
  assert (L : forall o a, negb (ad_err a =? EINPROGRESS) = true \/
    (forallb (fun p => 1 <=? po_after p) (ad_polls a) = true /\ (co_connect o <? Z.of_nat (length (ad_polls a))) = true /\ ad_polls a <> []) ->
    lively o a).
  { intros o a [H|(B & C & D)] E.
    - rewrite E in H. discriminate H.
    - right. split; [|split; [now apply Z.ltb_lt|exact D]].
      apply Forall_forall. intros p H. rewrite forallb_forall in B. apply Z.leb_le. exact (B p H). }
  apply Forall_cons; [apply L; right; repeat split; discriminate|].
  apply Forall_cons; [apply L; now left|].
  apply Forall_cons; [apply L; now left|].
  apply Forall_cons; [apply L; right; repeat split; discriminate|].
  apply Forall_cons; [apply L; right; repeat split; discriminate|constructor].
Qed.
