(** Runs of the throttle that show the statements are about something, and where
    the plain claim fails. *)
From Coq Require Import Lqa Lia.
From Verif Require Export Proofs.ThrottlerRateFacts.
Import ListNotations.
Open Scope Z_scope.

Definition peak_only : throttler :=
  {| th_start := 0; th_progress := 0; th_fill := 0; th_bucket := 0; th_refs := 0;
     th_avg := 0; th_limit := 1; th_rate := 1; th_single := 1 |}.
Definition avg_only : throttler :=
  {| th_start := 0; th_progress := 0; th_fill := 0; th_bucket := 0; th_refs := 0;
     th_avg := 2; th_limit := 0; th_rate := 0; th_single := 3 |}.
Definition ask (i : nat) : list tkev := [EvLimit i 1; EvHead i; EvCalc i].
Definition done (i : nat) : list tkev := [EvWake i; EvHead i].

(** Four threads ask at 1/2, 3/4, 1 and 5/4; each time the truncation of a
    negative token count towards zero makes the debt vanish. *)
Definition truncation_run : list tkev :=
  EvTick (1#2) :: ask 0 ++ EvTick (1#4) :: ask 1 ++ EvTick (1#4) :: ask 2 ++ EvTick (1#4) :: ask 3 ++
  EvTick (1#4) :: done 0 ++ EvTick (1#4) :: done 1 ++ EvTick (1#4) :: done 2 ++ EvTick (1#4) :: done 3.
(** Four threads ask at 0; the first three oversleep. *)
Definition oversleep_run : list tkev :=
  ask 0 ++ ask 1 ++ ask 2 ++ ask 3 ++ EvTick (31#8) :: done 0 ++ EvTick (1#8) :: done 1 ++ done 2 ++ done 3.
(** The same without oversleeping. *)
Definition punctual_run : list tkev :=
  EvTick 5 :: ask 0 ++ EvHead 0 :: EvTick 1 :: ask 0 ++ EvHead 0 :: ask 1 ++ ask 2 ++ EvTick 1 :: done 1 ++ EvTick 1 :: done 2.
Definition average_run : list tkev :=
  [EvLimit 0 5; EvHead 0; EvCalc 0; EvReg; EvLimit 1 1; EvHead 1; EvCalc 1; EvTick (3#2); EvWake 0; EvHead 0; EvCalc 0;
   EvTick (1#2); EvWake 1; EvHead 1; EvTick 1; EvWake 0; EvHead 0; EvDereg].
Definition the_run (n : nat) (th : throttler) (evs : list tkev) : tksys :=
  match tk_run evs (tk_init th 0 n) with Some s => s | None => tk_init th 0 n end.

Ltac concrete :=
  match goal with
  | |- context [tk_log ?r] =>
      let l := eval vm_compute in (tk_log r) in
      let E := fresh in assert (E : tk_log r = l) by (vm_compute; reflexivity); rewrite E; clear E
  end.
Ltac each H := repeat (destruct H as [<- | H]; [intros [= <-]; vm_compute; reflexivity |]); contradiction.
Ltac steps :=
  let i := fresh "i" in let H := fresh in
  intros i ? ?; destruct i as [|[|[|[|i]]]]; cbn [nth_error]; intros H; try (injection H as <-);
  [intros H; injection H as <-; vm_compute; congruence .. | discriminate || (intros H'; destruct i; discriminate) | destruct i; discriminate H].
Lemma truncation_punctual : punctual 1 (tk_log (the_run 4 peak_only truncation_run)).
Proof. concrete. intros c t H. each H. Qed.
Lemma truncation_in_order : in_order (tk_log (the_run 4 peak_only truncation_run)).
Proof. concrete. steps. Qed.
Lemma oversleep_in_order : in_order (tk_log (the_run 4 peak_only oversleep_run)).
Proof. concrete. steps. Qed.
Lemma oversleep_whole : whole_tokens 0 1 (tk_log (the_run 4 peak_only oversleep_run)).
Proof.
  concrete. intros i y. destruct i as [|[|[|[|i]]]]; cbn [nth_error]; intros H; try (injection H as <-).
  1-4: exists 0; vm_compute; reflexivity.
  destruct i; discriminate H.
Qed.
Lemma punctual_ok : punctual 1 (tk_log (the_run 3 peak_only punctual_run)).
Proof. concrete. intros c t H. each H. Qed.
Lemma punctual_in_order : in_order (tk_log (the_run 3 peak_only punctual_run)).
Proof. concrete. steps. Qed.
Lemma punctual_whole : whole_tokens 0 1 (tk_log (the_run 3 peak_only punctual_run)).
Proof.
  concrete. intros i y. destruct i as [|[|[|[|i]]]]; cbn [nth_error]; intros H; try (injection H as <-).
  - exists 5. vm_compute. reflexivity.
  - exists 1. vm_compute. reflexivity.
  - exists 0. vm_compute. reflexivity.
  - exists 0. vm_compute. reflexivity.
  - destruct i; discriminate H.
Qed.
