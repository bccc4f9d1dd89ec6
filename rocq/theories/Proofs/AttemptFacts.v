(** Every attempt to send a block ends up as one block sent or one failed attempt. *)
From Verif Require Export Proofs.HistoryFacts.
From Verif Require Import Spec.HistorySpec Proofs.SumFacts Proofs.QueueMonitorFacts.
From Coq Require Import Lia.

Definition tries (ts : stats) : Z := st_blocks ts + st_failed ts.

Lemma mark_tries h c ts h' ts' : markSourceAsFailed h c ts = (h', ts') -> tries ts' = tries ts.
Proof.
  unfold markSourceAsFailed, tries. destruct (negb (st_local (h_st h) =? OK)); intros [= _ <-]; cbn; lia.
Qed.
Lemma fail_all_tries l c : forall ts ret ts', fail_all l c ts = (ret, ts') -> tries ts' = tries ts.
Proof.
  induction l as [|h l IH]; intros ts ret ts'; cbn [fail_all]; [intros [= _ <-]; reflexivity|].
  destruct (markSourceAsFailed h _ ts) as [h' ts1] eqn:E1. destruct (fail_all l c ts1) as [r ts2] eqn:E2.
  intros [= _ <-]. rewrite (IH _ _ _ E2). exact (mark_tries _ _ _ _ _ E1).
Qed.
Lemma ckpt_tries hi ts c g e hi' ts' ret : setCheckpoint hi ts c g = Ret (e, hi', ts', ret) -> tries ts' = tries ts.
Proof.
  unfold setCheckpoint. destruct (_ <? _); [intros [= _ _ <- _]; reflexivity|].
  destruct (validateCheckpoint _ _ _) as [k| |]; cbn [obind]; try discriminate.
  destruct (k =? INVALID_CHECKPOINT); [intros [= _ _ <- _]; reflexivity|].
  destruct (_ <? 0); [discriminate|].
  destruct (fail_all _ _ _) as [r ts1] eqn:E. intros [= _ _ <- _]. exact (fail_all_tries _ _ _ _ _ E).
Qed.
Lemma add_tries hi ts h hi' ts' o : addSource hi ts h = (hi', ts', o) -> tries ts' = tries ts.
Proof.
  unfold addSource. destruct (hi_global hi); [|intros [= _ <- _]; reflexivity].
  destruct (markSourceAsFailed _ _ _) as [h' ts1] eqn:E. intros [= _ <- _]. exact (mark_tries _ _ _ _ _ E).
Qed.
Lemma send_tries h r ts : tries (stats_add ts (sendStats h r)) = tries ts + 1.
Proof. unfold tries. destruct r as [hdr|code hdr data]; cbn; lia. Qed.

Definition total (w : sender) (i : nat) : option Z := option_map tries (nth_error (sn_stats w) i).
Definition one (a : sact) (i : nat) : Z := match a with ASend j _ => if Nat.eqb j i then 1 else 0 | _ => 0 end.

Lemma total_upd w j q fl hi ts fa ts0 i d : nth_error (sn_stats w) j = Some ts0 ->
  tries ts = tries ts0 + d ->
  total (upd_thread w j q fl hi ts fa) i =
  option_map (fun n => n + (if Nat.eqb j i then d else 0)) (total w i).
Proof.
  intros E H. unfold total. cbn [upd_thread sn_stats].
  destruct (Nat.eqb_spec j i) as [->|N].
  - rewrite (nth_set_same _ _ _ _ E), E. cbn [option_map]. rewrite H. reflexivity.
  - rewrite nth_set_other by auto. destruct (nth_error (sn_stats w) i); cbn [option_map]; [f_equal; lia|reflexivity].
Qed.
Lemma total_same w j q fl hi ts fa ts0 i : nth_error (sn_stats w) j = Some ts0 ->
  tries ts = tries ts0 -> total (upd_thread w j q fl hi ts fa) i = option_map (fun n => n + 0) (total w i).
Proof.
  intros E H. rewrite (total_upd w j q fl hi ts fa ts0 i 0 E) by lia.
  destruct (Nat.eqb j i); reflexivity.
Qed.

Lemma step_total w a w' i : sn_step w a = Some (Ret w') ->
  total w' i = option_map (fun n => n + one a i) (total w i).
Proof.
  intros H. destruct a as [s|j k opened|j r|j c|j c|j|j|j e|j n]; cbn [sn_step one] in H |- *.
  - injection H as <-. unfold total. cbn [sn_stats]. destruct (nth_error _ i); cbn [option_map]; [f_equal; lia|reflexivity].
  - unfold nthd in H. destruct (nth_error (sn_flight w) j) as [[x|]|]; try discriminate.
    destruct (nth_error (sn_hist w) j) as [hi|]; try discriminate.
    destruct (nth_error (sn_stats w) j) as [ts|] eqn:E; try discriminate.
    destruct (nth_error (sn_queue w) k) as [h|]; try discriminate.
    destruct (openSource opened h) as [e h']. destruct (e =? OK); injection H as <-; apply (total_same _ _ _ _ _ _ _ _ _ E); reflexivity.
  - unfold nthd in H. destruct (nth_error (sn_flight w) j) as [[h|]|]; try discriminate.
    destruct (nth_error (sn_hist w) j) as [hi|]; try discriminate.
    destruct (nth_error (sn_stats w) j) as [ts|] eqn:E; try discriminate. cbv zeta in H.
    destruct (addSource hi _ _) as [[hi' ts'] back] eqn:Ea. injection H as <-.
    apply (total_upd _ _ _ _ _ _ _ _ _ _ E). rewrite (add_tries _ _ _ _ _ _ Ea). apply send_tries.
  - unfold nthd in H. destruct (nth_error (sn_flight w) j) as [[h|]|]; try discriminate.
    destruct (nth_error (sn_hist w) j) as [hi|]; try discriminate.
    destruct (nth_error (sn_stats w) j) as [ts|] eqn:E; try discriminate. unfold apply_ckpt in H.
    destruct (setCheckpoint hi ts c false) as [[[[e hi'] ts'] ret]| |] eqn:Ec; try discriminate. injection H as <-.
    apply (total_same _ _ _ _ _ _ _ _ _ E). exact (ckpt_tries _ _ _ _ _ _ _ _ Ec).
  - unfold nthd in H. destruct (nth_error (sn_flight w) j) as [fl|]; try discriminate.
    destruct (nth_error (sn_hist w) j) as [hi|]; try discriminate.
    destruct (nth_error (sn_stats w) j) as [ts|] eqn:E; try discriminate. unfold apply_ckpt in H.
    destruct (setCheckpoint hi ts c true) as [[[[e hi'] ts'] ret]| |] eqn:Ec; try discriminate. injection H as <-.
    apply (total_same _ _ _ _ _ _ _ _ _ E). exact (ckpt_tries _ _ _ _ _ _ _ _ Ec).
  - unfold nthd in H. destruct (nth_error (sn_flight w) j) as [[h|]|]; try discriminate.
    destruct (nth_error (sn_hist w) j) as [hi|]; try discriminate.
    destruct (nth_error (sn_stats w) j) as [ts|] eqn:E; try discriminate. unfold apply_ckpt, returnUnacked in H.
    destruct (setCheckpoint hi ts _ false) as [[[[e hi'] ts'] ret]| |] eqn:Ec; try discriminate. injection H as <-.
    apply (total_same _ _ _ _ _ _ _ _ _ E). exact (ckpt_tries _ _ _ _ _ _ _ _ Ec).
  - unfold nthd in H. destruct (nth_error (sn_flight w) j) as [[h|]|]; try discriminate.
    destruct (nth_error (sn_hist w) j) as [hi|]; try discriminate.
    destruct (nth_error (sn_stats w) j) as [ts|] eqn:E; try discriminate. injection H as <-.
    apply (total_same _ _ _ _ _ _ _ _ _ E). reflexivity.
  - unfold nthd in H. destruct (nth_error (sn_flight w) j) as [fl|]; try discriminate.
    destruct (nth_error (sn_hist w) j) as [hi|]; try discriminate.
    destruct (nth_error (sn_stats w) j) as [ts|] eqn:E; try discriminate. injection H as <-.
    apply (total_same _ _ _ _ _ _ _ _ _ E). unfold tries; cbn; lia.
  - unfold nthd in H. destruct (nth_error (sn_flight w) j) as [fl|]; try discriminate.
    destruct (nth_error (sn_hist w) j) as [hi|]; try discriminate.
    destruct (nth_error (sn_stats w) j) as [ts|] eqn:E; try discriminate. injection H as <-.
    apply (total_same _ _ _ _ _ _ _ _ _ E). unfold tries; cbn; lia.
Qed.
Lemma run_total l : forall w w' i, sn_run w l = Some (Ret w') ->
  total w' i = option_map (fun n => n + attempts i l) (total w i).
Proof.
  induction l as [|a l IH]; intros w w' i H; cbn [sn_run] in H.
  - injection H as <-. unfold attempts. cbn [zsum]. destruct (total w i); cbn [option_map]; [f_equal; lia|reflexivity].
  - destruct (sn_step w a) as [[w1| |]|] eqn:E; try discriminate.
    rewrite (IH _ _ i H), (step_total _ _ _ i E). unfold attempts. cbn [zsum]. fold (one a i).
    destruct (total w i); cbn [option_map]; [f_equal; lia|reflexivity].
Qed.
Lemma attempts_counted n l w i ts : sn_run (sender_init n) l = Some (Ret w) ->
  nth_error (sn_stats w) i = Some ts -> st_blocks ts + st_failed ts = attempts i l.
Proof.
  intros H E. pose proof (run_total l _ _ i H) as T. unfold total in T at 1. rewrite E in T. cbn [option_map] in T.
  unfold total in T. cbn [sender_init sn_stats] in T.
  destruct (nth_error (repeat stats_new n) i) as [s|] eqn:E0; [|discriminate T].
  apply nth_error_In, repeat_spec in E0. subst s. cbn [option_map] in T. injection T as T. exact T.
Qed.
