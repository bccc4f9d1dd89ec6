(** The invariant of Proofs/CrashInv.v is kept by every careful step. *)
From Verif Require Export Proofs.CrashInv.
From Coq Require Import Lia.

Local Opaque Z.pow.

Lemma set_nth_twice {A} (l : list A) i a b : set_nth (set_nth l i a) i b = set_nth l i b.
Proof. revert i; induction l as [|x l IH]; intros [|i]; cbn; auto; f_equal; apply IH. Qed.
Lemma nth_set_cases {A} (l : list A) i t j u : nth_error (set_nth l i t) j = Some u ->
  (j = i /\ u = t) \/ (j <> i /\ nth_error l j = Some u).
Proof.
  revert i j; induction l as [|x l IH]; intros [|i] [|j]; cbn; intros H; try discriminate; auto.
  - left; split; [reflexivity|congruence].
  - destruct (IH _ _ H) as [[-> ->]|[Hn H']]; [left; auto|right; auto].
Qed.

Lemma nth_set_hit {A} (l : list A) i t u : nth_error l i = Some t -> nth_error (set_nth l i u) i = Some u.
Proof. revert i; induction l as [|x l IH]; intros [|i] H; cbn in *; try discriminate; auto. Qed.

Section Session.
Context (c : ccfg) (p : fplans) (d0 : disk) (infos : list file_chunks) (es seg : list log_entry).
Hypothesis Pf : plan_fits c p d0 infos.
Notation cinv := (cinv c p d0 es seg).
Notation thr_ok := (thr_ok c p d0).
Notation kept := (kept c p).

Definition no_alloc (s : cstate) (q : Z) : Prop :=
  forall j u b, nth_error (cs_thr s) j = Some u -> allocating (ct_op u) = Some b -> bd_seqId b <> q.

(** Only thread [i] changes. *)
Lemma set_thr_ok new s i t : cinv new s -> thr_ok s t ->
  (forall j u b b', nth_error (cs_thr s) j = Some u -> j <> i -> allocating (ct_op u) = Some b' ->
     allocating (ct_op t) = Some b -> bd_seqId b <> bd_seqId b') ->
  cinv new (set_thr s i t).
Proof.
  intros [Ilog Inew Idata Inone Iname Ismall Ilarge Ithr Iuniq Imark] Ht Hu; constructor; try assumption.
  - intros j u Hj; cbn [cs_thr set_thr] in Hj. apply nth_set_cases in Hj.
    destruct Hj as [[-> ->]|[_ Hj]]; [exact Ht|exact (Ithr _ _ Hj)].
  - intros j k u v b b' Hj Hk Ab Ab' E; cbn [cs_thr set_thr] in Hj, Hk.
    apply nth_set_cases in Hj, Hk.
    destruct Hj as [[-> ->]|[Nj Hj]], Hk as [[-> ->]|[Nk Hk]].
    + reflexivity.
    + exfalso; exact (Hu _ _ _ _ Hk Nk Ab' Ab E).
    + exfalso; exact (Hu _ _ _ _ Hj Nj Ab Ab' (eq_sym E)).
    + exact (Iuniq _ _ _ _ _ _ Hj Hk Ab Ab' E).
Qed.
Lemma set_thr_quiet new s i t : cinv new s -> thr_ok s t -> allocating (ct_op t) = None ->
  cinv new (set_thr s i t).
Proof. intros I Ht A; apply set_thr_ok; [exact I|exact Ht|congruence]. Qed.
Lemma drop_alloc new s i t b : cinv new s -> nth_error (cs_thr s) i = Some t ->
  allocating (ct_op t) = Some b ->
  cinv new (set_thr s i (with_op t OIdle)) /\ no_alloc (set_thr s i (with_op t OIdle)) (bd_seqId b).
Proof.
  intros I Hi Ha. split.
  - apply set_thr_quiet; [exact I| |reflexivity].
    destruct (ci_thr _ _ _ _ _ _ _ I _ _ Hi) as [_ Hw]; split; [exact Logic.I|exact Hw].
  - intros j u b' Hj Hb E. cbn [cs_thr set_thr] in Hj; apply nth_set_cases in Hj.
    destruct Hj as [[-> ->]|[Nj Hj]]; [discriminate Hb|].
    apply Nj. exact (ci_uniq _ _ _ _ _ _ _ I _ _ _ _ _ _ Hj Hi Hb Ha E).
Qed.

(** What a thread relies on when others step. *)
Lemma thr_frame s s' u :
  (forall b, allocating (ct_op u) = Some b -> planned p b ->
     cs_map s' (bd_seqId b) = cs_map s (bd_seqId b) /\
     cs_disk s' (bd_fileName b) = cs_disk s (bd_fileName b)) ->
  (forall b, live p s b -> cs_map s' (bd_seqId b) = Some AAllocated) ->
  (forall b n ok, live p s b -> ct_op u = OWrite b n ok -> 0 <= n <= bd_dataSize b ->
     good c (cs_disk s) (bd_fileName b) (bd_offset b) (bd_offset b + n) ->
     good c (cs_disk s') (bd_fileName b) (bd_offset b) (bd_offset b + n)) ->
  (forall b ok, live p s b -> In (b, ok) (ct_wait u) ->
     good c (cs_disk s) (bd_fileName b) (bd_offset b) (bd_offset b + bd_dataSize b) ->
     good c (cs_disk s') (bd_fileName b) (bd_offset b) (bd_offset b + bd_dataSize b)) ->
  thr_ok s u -> thr_ok s' u.
Proof.
  intros Ha Hl Hg Hw [Ho Hwt]. split.
  - destruct (ct_op u) as [|b|b|b|b|b|b n ok]; cbn [op_ok allocating] in *; auto;
      try (destruct Ho as (O1 & O2 & O3 & O4 & O5); destruct (Ha b eq_refl O1) as [E1 E2];
           unfold small in *; rewrite E1, E2; auto; fail).
    destruct Ho as (L & Hn & G & V). split; [|split; [exact Hn|split; [|exact V]]].
    + destruct L as (L1 & L2 & L3); split; [exact L1|]; split; [exact L2|apply Hl; exact (conj L1 (conj L2 L3))].
    + intros E; apply (Hg b n ok L eq_refl Hn); auto.
  - apply Forall_forall; intros [b ok] Hin. rewrite Forall_forall in Hwt.
    destruct (Hwt _ Hin) as [Hp [Hd|(L & G & V)]]; split; auto.
    right; cbn [fst snd] in *. split; [|split; [|exact V]].
    + destruct L as (L1 & L2 & L3); split; [exact L1|]; split; [exact L2|apply Hl; exact (conj L1 (conj L2 L3))].
    + intros E; apply (Hw b ok L Hin); auto.
Qed.

(** The allocation map changes at [q]. *)
Lemma set_map_ok new s q v : cinv new s -> no_alloc s q -> cs_map s q <> Some AAllocated ->
  (v = AAllocated -> forall pl, p q = Some pl ->
     (forall n z post, incarnation (seg ++ new) q n z post -> n = pl_name pl) /\
     (pl_alloc pl = EXISTS_TOO_LARGE -> small (cs_disk s) (pl_name pl) (pl_size pl))) ->
  cinv new (set_map s q v).
Proof.
  intros [Ilog Inew Idata Inone Iname Ismall Ilarge Ithr Iuniq Imark] Hn Hm Hv; constructor; try assumption.
  - intros q' pl x Hq Ha Hm'; apply (Inone q' pl x Hq Ha).
    cbn [cs_map set_map] in Hm'. destruct (Z.eq_dec q' q) as [->|Nq]; [exact Hm|].
    rewrite mput_other in Hm' by exact Nq; exact Hm'.
  - intros q' pl n z post Hq Hd Hm' Hi; cbn [cs_map set_map] in Hm'.
    destruct (Z.eq_dec q' q) as [->|Nq].
    + rewrite mput_same in Hm'. destruct Hm' as [E|Hm'].
      * injection E as ->. exact (proj1 (Hv eq_refl pl Hq) n z post Hi).
      * exact (Iname q pl n z post Hq Hd (or_intror Hm') Hi).
    + rewrite mput_other in Hm' by exact Nq. exact (Iname _ _ _ _ _ Hq Hd Hm' Hi).
  - intros q' pl Hq Ha Hm'; cbn [cs_map set_map cs_disk] in *. apply (Ismall q' pl Hq Ha).
    destruct (Z.eq_dec q' q) as [->|Nq]; [rewrite mput_same in Hm'; discriminate|].
    rewrite mput_other in Hm' by exact Nq; exact Hm'.
  - intros q' pl Hq Ha Hm'; cbn [cs_map set_map cs_disk] in *.
    destruct (Z.eq_dec q' q) as [->|Nq].
    + rewrite mput_same in Hm'; injection Hm' as ->. exact (proj2 (Hv eq_refl pl Hq) Ha).
    + rewrite mput_other in Hm' by exact Nq; exact (Ilarge _ _ Hq Ha Hm').
  - intros i t Hi. apply (thr_frame s); [| | | |exact (Ithr _ _ Hi)]; auto.
    + intros b Hb _; cbn [cs_map cs_disk set_map]; split; [|reflexivity].
      apply mput_other; exact (Hn _ _ _ Hi Hb).
    + intros b (_ & _ & L); cbn [cs_map set_map]; rewrite mput_other by congruence; exact L.
Qed.

(** The disk changes at the file of [b], which nobody is allocating or using. *)
Lemma set_disk_ok new s b d : cinv new s -> planned p b -> no_alloc s (bd_seqId b) ->
  cs_map s (bd_seqId b) <> Some AAllocated ->
  (forall n, n <> bd_fileName b -> d n = cs_disk s n) ->
  (forall x, claims seg new (bd_fileName b) x -> kept d (bd_fileName b) x) ->
  (bd_alloc b = EXISTS_TOO_SMALL -> cs_map s (bd_seqId b) = None -> d (bd_fileName b) = d0 (bd_fileName b)) ->
  cinv new (set_disk s d).
Proof.
  intros [Ilog Inew Idata Inone Iname Ismall Ilarge Ithr Iuniq Imark] Hb Hn Hm Hd Hk Hs; constructor; try assumption.
  - intros name x Hc. cbn [cs_disk set_disk].
    destruct (list_eq_dec Z.eq_dec name (bd_fileName b)) as [->|N]; [exact (Hk x Hc)|].
    intros f Hf; rewrite Hd in Hf by exact N; exact (Idata _ _ Hc f Hf).
  - intros q pl Hq Ha Hm'; cbn [cs_disk set_disk].
    destruct (list_eq_dec Z.eq_dec (pl_name pl) (bd_fileName b)) as [E|N].
    + destruct (same_file c p d0 infos Pf b q pl Hb Hq E) as [-> ->]; exact (Hs Ha Hm').
    + rewrite Hd by exact N; exact (Ismall _ _ Hq Ha Hm').
  - intros q pl Hq Ha Hm'; cbn [cs_disk set_disk].
    destruct (list_eq_dec Z.eq_dec (pl_name pl) (bd_fileName b)) as [E|N].
    + destruct (same_file c p d0 infos Pf b q pl Hb Hq E) as [-> ->]; contradiction.
    + intros f Hf; rewrite Hd in Hf by exact N; exact (Ilarge _ _ Hq Ha Hm' f Hf).
  - intros i t Hi.
    assert (Hl : forall b', live p s b' -> bd_fileName b' <> bd_fileName b).
    { intros b' (L1 & _ & L3) E. destruct (same_block c p d0 infos Pf b' b L1 Hb E) as (E1 & _); congruence. }
    apply (thr_frame s); [| | | |exact (Ithr _ _ Hi)]; cbn [cs_map cs_disk set_disk].
    + intros b' Ha Hp'; split; [reflexivity|]. apply Hd; intros E.
      destruct (same_block c p d0 infos Pf b' b Hp' Hb E) as (E1 & _). exact (Hn _ _ _ Hi Ha E1).
    + intros b' (_ & _ & L); exact L.
    + intros b' n ok L _ _ G f x Hf Hx; rewrite Hd in Hf by (apply Hl, L); exact (G f x Hf Hx).
    + intros b' ok L _ G f x Hf Hx; rewrite Hd in Hf by (apply Hl, L); exact (G f x Hf Hx).
Qed.

(** An entry other than a block is given to the log. *)
Lemma log_add_ok new s e m : cinv new s -> logs es (new ++ [e]) m -> entry_ok e -> plain e ->
  (forall ts q off z, e <> LBlock ts q off z) ->
  (forall ts n q z pl, e = LCreate ts n q z -> p q = Some pl -> pl_alloc pl <> TO_BE_DELETED -> n = pl_name pl) ->
  cinv (new ++ [e]) (set_log s m).
Proof.
  intros [Ilog Inew Idata Inone Iname Ismall Ilarge Ithr Iuniq Imark] Hl Ho Hp Hb Hc; constructor; try assumption.
  - destruct Inew as (N1 & N2 & N3). rewrite !Forall_app.
    repeat split; auto. constructor; [|constructor].
    destruct e; cbn; auto. exfalso; eapply Hb; reflexivity.
  - intros name x H; apply claims_quiet in H; [exact (Idata _ _ H)|exact Hb].
  - intros q pl x Hq Ha Hm H; apply claims_quiet in H; [exact (Inone _ _ _ Hq Ha Hm H)|exact Hb].
  - intros q pl n z post Hq Hd Hm Hi. rewrite app_assoc in Hi; apply incarnation_snoc in Hi.
    destruct Hi as [[_ [ts E]]|(_ & p0 & _ & Hi)]; [exact (Hc _ _ _ _ _ E Hq Hd)|].
    exact (Iname _ _ _ _ _ Hq Hd Hm Hi).
  - intros name x H; apply claims_quiet in H; [exact (Imark _ _ H)|exact Hb].
Qed.

(** A verified block is given to the log. *)
Lemma mark_ok new s b ts m : cinv new s -> live p s b ->
  good c (cs_disk s) (bd_fileName b) (bd_offset b) (bd_offset b + bd_dataSize b) ->
  entry_ok (LBlock ts (bd_seqId b) (bd_offset b) (bd_dataSize b)) ->
  logs es (new ++ [LBlock ts (bd_seqId b) (bd_offset b) (bd_dataSize b)]) m ->
  cinv (new ++ [LBlock ts (bd_seqId b) (bd_offset b) (bd_dataSize b)]) (set_log (add_marked s b) m).
Proof.
  intros [Ilog Inew Idata Inone Iname Ismall Ilarge Ithr Iuniq Imark] (Hb & Hd & Hm) G Ho Hl.
  pose proof (proj1 Hb) as Hq.
  assert (K : forall name x,
    claims seg (new ++ [LBlock ts (bd_seqId b) (bd_offset b) (bd_dataSize b)]) name x ->
    claims seg new name x \/ covers b name x).
  { intros name x H; apply claims_block in H; destruct H as [H|(Hx & z & post & I)]; [left; exact H|].
    right; split; [|exact Hx]. symmetry. exact (Iname _ _ _ _ _ Hq Hd (or_introl Hm) I). }
  constructor; try assumption.
  - destruct Inew as (N1 & N2 & N3). rewrite !Forall_app.
    repeat split; auto; constructor; cbn; auto. destruct Hb as (_ & _ & _ & _ & ? & ? & ? & ?); lia.
  - intros name x H f Hf; destruct (K _ _ H) as [H'|[E Hx]]; [exact (Idata _ _ H' f Hf)|].
    subst name; left; exact (G f x Hf Hx).
  - intros q pl x Hq' Ha Hm' H; destruct (K _ _ H) as [H'|[E Hx]]; [exact (Inone _ _ _ Hq' Ha Hm' H')|].
    destruct (same_file c p d0 infos Pf b q pl Hb Hq' (eq_sym E)) as [-> ->]; contradiction.
  - intros q pl n z post Hq' Hd' Hm' I; apply incarnation_quiet in I; [|discriminate].
    destruct I as [p0 I]; exact (Iname _ _ _ _ _ Hq' Hd' Hm' I).
  - intros name x H; destruct (K _ _ H) as [H'|H'].
    + destruct (Imark _ _ H') as [V|(b' & Hin & Hc)]; [left; exact V|].
      right; exists b'; split; [right; exact Hin|exact Hc].
    + right; exists b; split; [left; reflexivity|exact H'].
Qed.

(** Received bytes are written. *)
Hypothesis Hrep : forall name x, vouched seg name x -> reported infos name x.
Lemma write_ok new s i t b n ok bs : cinv new s -> nth_error (cs_thr s) i = Some t ->
  ct_op t = OWrite b n ok -> careful c p infos (CWrite i bs) s -> n + zlen bs <= bd_dataSize b ->
  cinv new (set_thr (set_disk s (on_file (cs_disk s) (bd_fileName b)
                                   (fun f => file_put f (bd_offset b + n) bs)))
              i (with_op t (OWrite b (n + zlen bs)
                   (ok && right_bytes (c_src c (bd_fileName b)) (bd_offset b + n) bs)))).
Proof.
  intros [Ilog Inew Idata Inone Iname Ismall Ilarge Ithr Iuniq Imark] Hi Hop [_ Hcar] Hlen.
  specialize (Hcar t b n ok Hi Hop).
  destruct (Ithr _ _ Hi) as [Ho Hwt]. rewrite Hop in Ho; cbn [op_ok] in Ho.
  destruct Ho as (L & Hn & G & V). pose proof L as (Hb & Hd & Hm).
  pose proof Hb as (Hq & _ & _ & _ & Hoff & Hds & Hsz & _).
  set (pos := bd_offset b + n) in *. set (src := c_src c (bd_fileName b)) in *.
  set (d' := on_file (cs_disk s) (bd_fileName b) (fun f => file_put f pos bs)).
  pose proof (zlen_nonneg bs) as Hz.
  assert (Do : forall nm, nm <> bd_fileName b -> d' nm = cs_disk s nm).
  { intros nm N; apply on_file_other, N. }
  assert (Ds : forall f', d' (bd_fileName b) = Some f' ->
     exists f, cs_disk s (bd_fileName b) = Some f /\ f' = file_put f pos bs).
  { intros f' Hf; unfold d' in Hf; rewrite on_file_same in Hf.
    destruct (cs_disk s (bd_fileName b)) as [f|]; [|discriminate]. exists f; split; congruence. }
  (* a right byte stays right unless it is neither reported nor taken *)
  assert (Stay : forall f x, rd f x = Some (src x) ->
     (right_bytes src pos bs = true \/ ~ (pos <= x < pos + zlen bs)) ->
     rd (file_put f pos bs) x = Some (src x)).
  { intros f x E H. destruct (Z_lt_le_dec x pos); [apply put_keeps; auto; lia|].
    destruct (Z_lt_le_dec x (pos + zlen bs)); [|apply put_keeps; auto; lia].
    destruct H as [H|H]; [apply put_right; auto; lia|lia]. }
  assert (Tk : forall x, reported infos (bd_fileName b) x \/ taken s i (bd_fileName b) x ->
     right_bytes src pos bs = true \/ ~ (pos <= x < pos + zlen bs)).
  { intros x H; destruct Hcar as [R|[_ W]]; [left; exact R|right; intros Hx].
    destruct (W x Hx) as [W1 W2]; destruct H; contradiction. }
  assert (Gd : forall a e, good c (cs_disk s) (bd_fileName b) a e ->
     (forall x, a <= x < e -> reported infos (bd_fileName b) x \/ taken s i (bd_fileName b) x) ->
     good c d' (bd_fileName b) a e).
  { intros a e Hg Ht f' x Hf Hx. destruct (Ds _ Hf) as (f & Hf0 & ->).
    apply Stay; [exact (Hg f x Hf0 Hx)|apply Tk, Ht, Hx]. }
  assert (Wt : forall u, (exists j, nth_error (cs_thr s) j = Some u) -> forall b' ok',
     live p s b' -> In (b', ok') (ct_wait u) ->
     good c (cs_disk s) (bd_fileName b') (bd_offset b') (bd_offset b' + bd_dataSize b') ->
     good c d' (bd_fileName b') (bd_offset b') (bd_offset b' + bd_dataSize b')).
  { intros u [j Hj] b' ok' _ Hin Hg.
    destruct (list_eq_dec Z.eq_dec (bd_fileName b') (bd_fileName b)) as [E|N].
    - rewrite E in *; apply Gd; [exact Hg|]. intros x Hx; right; right; left.
      exists j, u, b', ok'; split; [exact Hj|]; split; [exact Hin|]; split; [exact E|exact Hx].
    - intros f x Hf Hx; rewrite Do in Hf by exact N; exact (Hg f x Hf Hx). }
  assert (Frame : forall u j, nth_error (cs_thr s) j = Some u -> j <> i ->
     thr_ok (set_disk s d') u).
  { intros u j Hj Nj; apply (thr_frame s); [| | | |exact (Ithr _ _ Hj)]; cbn [cs_map cs_disk set_disk].
    - intros b' Ha Hp'; split; [reflexivity|]. apply Do; intros E.
      destruct (same_block c p d0 infos Pf b' b Hp' Hb E) as (E1 & _).
      assert (cs_map s (bd_seqId b') = Some AInProgress).
      { destruct (Ithr _ _ Hj) as [Ho' _].
        destruct (ct_op u); try discriminate Ha; injection Ha as ->; cbn [op_ok] in Ho'; tauto. }
      congruence.
    - intros b' (_ & _ & L'); exact L'.
    - intros b' n' ok' L' Hop' Hn' Hg.
      destruct (list_eq_dec Z.eq_dec (bd_fileName b') (bd_fileName b)) as [E|N].
      + rewrite E in *; apply Gd; [exact Hg|]. intros x Hx; right; right; right.
        exists j, u, b', n', ok'; split; [exact Hj|]; split; [congruence|]; split; [exact Hop'|].
        split; [exact E|lia].
      + intros f x Hf Hx; rewrite Do in Hf by exact N; exact (Hg f x Hf Hx).
    - apply Wt; exists j; exact Hj. }
  constructor; cbn [cs_log cs_map cs_disk cs_thr cs_marked set_thr set_disk]; try assumption.
  - intros name x H f' Hf.
    destruct (list_eq_dec Z.eq_dec name (bd_fileName b)) as [->|N].
    + destruct (Ds _ Hf) as (f & Hf0 & ->). destruct (Idata _ _ H f Hf0) as [E|(q & pl & H1 & H2 & H3 & H4 & H5)].
      * left; apply Stay; [exact E|]. apply Tk.
        destruct (Imark _ _ H) as [Vo|Mk]; [left; exact (Hrep _ _ Vo)|right; left; exact Mk].
      * right; exists q, pl; do 4 (split; [assumption|]).
        destruct (same_file c p d0 infos Pf b q pl Hb H1 H2) as [-> ->]; cbn [pl_size] in *.
        pose proof (put_len f pos bs ltac:(lia)); lia.
    + rewrite Do in Hf by exact N; exact (Idata _ _ H f' Hf).
  - intros q pl Hq' Ha Hm'.
    destruct (list_eq_dec Z.eq_dec (pl_name pl) (bd_fileName b)) as [E|N].
    + destruct (same_file c p d0 infos Pf b q pl Hb Hq' E) as [-> ->]; congruence.
    + fold d'; rewrite Do by exact N; exact (Ismall _ _ Hq' Ha Hm').
  - intros q pl Hq' Ha Hm' f' Hf; fold d' in Hf.
    destruct (list_eq_dec Z.eq_dec (pl_name pl) (bd_fileName b)) as [E|N].
    + pose proof (Ilarge _ _ Hq' Ha Hm') as Hs. destruct (same_file c p d0 infos Pf b q pl Hb Hq' E) as [-> ->].
      cbn [pl_name pl_size] in *. destruct (Ds _ Hf) as (f & Hf0 & ->). pose proof (Hs f Hf0).
      pose proof (put_len f pos bs ltac:(lia)); lia.
    + rewrite Do in Hf by exact N; exact (Ilarge _ _ Hq' Ha Hm' f' Hf).
  - intros j u Hj; apply nth_set_cases in Hj. fold d'.
    destruct Hj as [[-> ->]|[Nj Hj]]; [|exact (Frame u j Hj Nj)].
    split; cbn [ct_op ct_wait with_op op_ok].
    + split; [exact L|]. split; [lia|]. split.
      * intros E; apply andb_true_iff in E; destruct E as [E1 E2].
        intros f' x Hf Hx. destruct (Ds _ Hf) as (f & Hf0 & ->).
        destruct (Z_lt_le_dec x pos).
        -- apply Stay; [apply (G E1 f x Hf0); lia|left; exact E2].
        -- apply put_right; [lia|exact E2|lia].
      * intros E. rewrite (V E); cbn [andb]. destruct Hcar as [R|[W _]]; [exact R|congruence].
    + apply Forall_forall; intros [b' ok'] Hin. rewrite Forall_forall in Hwt.
      destruct (Hwt _ Hin) as [Hp' [Hd'|(L' & G' & V')]]; split; auto. right; cbn [fst snd] in *.
      split; [exact L'|]. split; [|exact V']. intros E.
      apply (Wt t (ex_intro _ i Hi) b' ok' L' Hin (G' E)).
  - intros j k u v b1 b2 Hj Hk A1 A2 E. apply nth_set_cases in Hj, Hk.
    destruct Hj as [[-> ->]|[Nj Hj]]; [discriminate A1|].
    destruct Hk as [[-> ->]|[Nk Hk]]; [discriminate A2|].
    exact (Iuniq _ _ _ _ _ _ Hj Hk A1 A2 E).
Qed.

(** The entries of planned blocks are well formed. *)
Lemma planned_entries ts b : in_nat63 ts -> planned p b ->
  entry_ok (LCreate ts (bd_fileName b) (bd_seqId b) (bd_fileSize b)) /\
  entry_ok (LResize ts (bd_seqId b) (bd_fileSize b)) /\
  entry_ok (LBlock ts (bd_seqId b) (bd_offset b) (bd_dataSize b)) /\
  entry_ok (LInval ts (bd_seqId b)) /\ entry_ok (LInval ts (bd_prevSeqId b)).
Proof.
  intros Ht (_ & H1 & H2 & H3 & H4 & H5 & H6 & H7). unfold in_nat63 in *.
  assert (F : forall e, entry_fields_ok e ->
     (match e with LHeader _ v rid ip _ => v = 2 /\ zlen rid + zlen ip <= 4103
                 | LCreate _ name _ _ => zlen name <= 4097 | _ => True end) -> entry_ok e).
  { intros e F1 F2; split; [exact F1|apply entry_fits; assumption]. }
  assert (zlen (bd_fileName b) < 2 ^ 63) by (change (2 ^ 63) with 9223372036854775808 in *; lia).
  repeat split; try (apply F; cbn; unfold in_nat63; auto; repeat split; lia); try (cbn; unfold in_nat63; lia).
  all: apply entry_fits; cbn; unfold in_nat63; auto; repeat split; lia.
Qed.

(** A file is unlinked. *)
Lemma delete_ok new s b : cinv new s -> planned p b -> bd_alloc b = TO_BE_DELETED ->
  cinv new (set_disk s (dput (cs_disk s) (bd_fileName b) None)).
Proof.
  intros [Ilog Inew Idata Inone Iname Ismall Ilarge Ithr Iuniq Imark] Hb Hd.
  assert (Dn : forall n f, dput (cs_disk s) (bd_fileName b) None n = Some f -> cs_disk s n = Some f).
  { intros n f; destruct (list_eq_dec Z.eq_dec n (bd_fileName b)) as [->|N];
      [rewrite dput_same; discriminate|rewrite dput_other by exact N; auto]. }
  constructor; cbn [cs_log cs_map cs_disk cs_thr cs_marked set_disk]; try assumption.
  - intros name x H f Hf; exact (Idata _ _ H f (Dn _ _ Hf)).
  - intros q pl Hq Ha Hm.
    destruct (list_eq_dec Z.eq_dec (pl_name pl) (bd_fileName b)) as [E|N].
    + destruct (same_file c p d0 infos Pf b q pl Hb Hq E) as [-> ->]; cbn [pl_alloc] in Ha; rewrite Hd in Ha; discriminate Ha.
    + rewrite dput_other by exact N; exact (Ismall _ _ Hq Ha Hm).
  - intros q pl Hq Ha Hm f Hf; exact (Ilarge _ _ Hq Ha Hm f (Dn _ _ Hf)).
  - intros j u Hj; destruct (Ithr _ _ Hj) as [Ho Hw].
    apply (thr_frame s); cbn [cs_map cs_disk set_disk].
    + intros b' Ha Hp'; split; [reflexivity|]. apply dput_other; intros E.
      destruct (same_block c p d0 infos Pf b' b Hp' Hb E) as (_ & _ & E3).
      destruct (ct_op u); try discriminate Ha; injection Ha as ->; cbn [op_ok] in Ho;
        destruct Ho as (_ & O2 & _); congruence.
    + intros b' (_ & _ & L'); exact L'.
    + intros b' n ok _ _ _ G f x Hf Hx; exact (G f x (Dn _ _ Hf) Hx).
    + intros b' ok _ _ G f x Hf Hx; exact (G f x (Dn _ _ Hf) Hx).
    + split; [exact Ho|exact Hw].
Qed.

Lemma open_ok new s i t b s' : cinv new s -> nth_error (cs_thr s) i = Some t ->
  ct_op t = OHeader b -> c_open c s i t b = Some s' -> cinv new s'.
Proof.
  intros I Hi Hop E. pose proof (ci_thr _ _ _ _ _ _ _ I _ _ Hi) as [Hb Hw].
  rewrite Hop in Hb; cbn [op_ok] in Hb. pose proof (proj1 Hb) as Hq.
  pose proof (pf_alloc _ _ _ _ Pf _ _ Hq) as Hal; cbn [pl_alloc] in Hal.
  assert (Idle : forall s0, cinv new s0 -> Forall (wait_ok c p s0) (ct_wait t) ->
     cinv new (set_thr s0 i (with_op t OIdle))).
  { intros s0 I0 Hw0; apply set_thr_quiet; [exact I0| |reflexivity]. split; [exact Logic.I|exact Hw0]. }
  assert (Ex : forall s0, cinv new s0 -> Forall (wait_ok c p s0) (ct_wait t) -> live p s0 b ->
     cinv new match cs_disk s0 (bd_fileName b) with
              | Some _ => set_thr s0 i (with_op t (OWrite b 0 true))
              | None => set_thr s0 i (with_op t OIdle) end).
  { intros s0 I0 Hw0 L0; destruct (cs_disk s0 (bd_fileName b)); [|apply Idle; assumption].
    apply set_thr_quiet; [exact I0| |reflexivity]. split; [|exact Hw0]. cbn [ct_op with_op op_ok].
    split; [exact L0|]. split; [destruct Hb as (_ & _ & _ & _ & ? & ? & _); lia|].
    split; [|auto]. intros _ f x _ Hx; lia. }
  unfold c_open in E. cbv zeta in E.
  destruct (Z.eqb_spec (bd_alloc b) TO_BE_DELETED) as [Hd|Hd].
  { injection E as <-.
    assert (I1 : cinv new (if c_delete c then set_disk s (dput (cs_disk s) (bd_fileName b) None) else s))
      by (destruct (c_delete c); [apply delete_ok; assumption|exact I]).
    assert (Hw1 : thr_ok (if c_delete c then set_disk s (dput (cs_disk s) (bd_fileName b) None) else s) t).
    { apply (ci_thr _ _ _ _ _ _ _ I1 i t). destruct (c_delete c); exact Hi. }
    apply set_thr_quiet; [exact I1| |reflexivity]. split; [exact Logic.I|].
    cbn [ct_wait]; apply Forall_app; split; [exact (proj2 Hw1)|].
    constructor; [|constructor]. split; [exact Hb|left; exact Hd]. }
  destruct (cs_map s (bd_seqId b)) as [[| |]|] eqn:Hm; try discriminate E.
  { injection E as <-. apply Ex; [exact I|exact Hw|exact (conj Hb (conj Hd Hm))]. }
  { injection E as <-. apply Idle; assumption. }
  assert (Na : no_alloc s (bd_seqId b)).
  { intros j u b' Hj Ha E'. destruct (ci_thr _ _ _ _ _ _ _ I _ _ Hj) as [Ho _].
    assert (cs_map s (bd_seqId b') = Some AInProgress).
    { destruct (ct_op u); try discriminate Ha; injection Ha as ->; cbn [op_ok] in Ho; tauto. }
    congruence. }
  assert (Nm : cs_map s (bd_seqId b) <> Some AAllocated) by congruence.
  destruct (Z.eqb_spec (bd_alloc b) EXISTS_CORRECT_SIZE) as [Hc|Hc].
  { injection E as <-.
    assert (I1 : cinv new (set_map s (bd_seqId b) AAllocated)).
    { apply set_map_ok; [exact I|exact Na|exact Nm|]. intros _ pl Hpl.
      assert (pl = {| pl_name := bd_fileName b; pl_size := bd_fileSize b;
                      pl_alloc := bd_alloc b; pl_prev := bd_prevSeqId b |}) as -> by congruence.
      cbn [pl_name pl_alloc]. split.
      - intros n z post Hinc. apply (ci_name _ _ _ _ _ _ _ I _ _ _ _ _ Hq Hd (or_intror (or_introl Hc)) Hinc).
      - rewrite Hc; discriminate. }
    apply (Ex (set_map s (bd_seqId b) AAllocated)); [exact I1| |].
    - exact (proj2 (ci_thr _ _ _ _ _ _ _ I1 i t Hi)).
    - split; [exact Hb|]. split; [exact Hd|]. cbn [cs_map set_map]; apply mput_same. }
  destruct (Z.eqb_spec (bd_alloc b) NOT_EXISTS) as [He|He].
  { injection E as <-.
    set (d := dput (cs_disk s) (bd_fileName b) (Some [])).
    assert (I1 : cinv new (set_disk s d)).
    { apply (set_disk_ok new s b d I Hb Na Nm).
      - intros n N; apply dput_other, N.
      - intros x Hcl; exfalso. exact (ci_none _ _ _ _ _ _ _ I _ _ x Hq He Nm Hcl).
      - rewrite He; discriminate. }
    assert (I2 : cinv new (set_map (set_disk s d) (bd_seqId b) AInProgress))
      by (apply set_map_ok; [exact I1|exact Na|exact Nm|discriminate]).
    change (set_disk (set_map s (bd_seqId b) AInProgress) d)
      with (set_map (set_disk s d) (bd_seqId b) AInProgress).
    apply set_thr_ok; [exact I2| |].
    - split; [|exact (proj2 (ci_thr _ _ _ _ _ _ _ I2 i t Hi))]. cbn [ct_op with_op op_ok].
      split; [exact Hb|]. split; [exact Hd|]. split; [exact Hc|].
      split; [cbn [cs_map set_map]; apply mput_same|rewrite He; discriminate].
    - intros j u b1 b2 Hj _ A1 A2 Eq. injection A2 as <-. exact (Na _ _ _ Hj A1 (eq_sym Eq)). }
  destruct (cs_disk s (bd_fileName b)) as [f|] eqn:Hf.
  { injection E as <-.
    assert (I1 : cinv new (set_map s (bd_seqId b) AInProgress))
      by (apply set_map_ok; [exact I|exact Na|exact Nm|discriminate]).
    apply set_thr_ok; [exact I1| |].
    - split; [|exact (proj2 (ci_thr _ _ _ _ _ _ _ I1 i t Hi))]. cbn [ct_op with_op op_ok].
      split; [exact Hb|]. split; [exact Hd|]. split; [exact Hc|].
      split; [cbn [cs_map set_map]; apply mput_same|].
      intros Hs; exact (ci_small _ _ _ _ _ _ _ I _ _ Hq Hs Hm).
    - intros j u b1 b2 Hj _ A1 A2 Eq. injection A2 as <-. exact (Na _ _ _ Hj A1 (eq_sym Eq)). }
  injection E as <-.
  assert (I1 : cinv new (set_map s (bd_seqId b) AFailed))
    by (apply set_map_ok; [exact I|exact Na|exact Nm|discriminate]).
  apply Idle; [exact I1|exact (proj2 (ci_thr _ _ _ _ _ _ _ I1 i t Hi))].
Qed.

Lemma step_ok new s l s' : cinv new s -> careful c p infos l s -> cstep c l s = Some s' ->
  exists e, cinv (new ++ e) s'.
Proof.
  intros I Hcar E.
  assert (Zero : cinv new s' -> exists e, cinv (new ++ e) s')
    by (intros H; exists []; rewrite app_nil_r; exact H).
  destruct l as [i b|i|i|i|i ts|i ts|i bs|i|i ts|i|i|]; cbn [cstep] in E;
    try (destruct (nth_error (cs_thr s) i) as [t|] eqn:Hi; [|discriminate E];
         pose proof (ci_thr _ _ _ _ _ _ _ I _ _ Hi) as [Ho Hw]).
  - (* header *)
    destruct (ct_op t) eqn:Hop; try discriminate E; injection E as <-; apply Zero.
    apply set_thr_quiet; [exact I| |reflexivity]. split; [exact (proj2 Hcar)|exact Hw].
  - (* open *)
    destruct (ct_op t) eqn:Hop; try discriminate E. apply Zero; exact (open_ok _ _ _ _ _ _ I Hi Hop E).
  - (* truncate *)
    destruct (ct_op t) eqn:Hop; try discriminate E; injection E as <-; apply Zero.
    cbn [op_ok] in Ho; destruct Ho as (Hb & Hd & Hc & Hm & Hs). pose proof (proj1 Hb) as Hq.
    destruct (drop_alloc new s i t b I Hi ltac:(rewrite Hop; reflexivity)) as [I0 Na].
    set (s0 := set_thr s i (with_op t OIdle)) in *.
    set (d := on_file (cs_disk s) (bd_fileName b) (cut_size c (bd_fileSize b))).
    assert (Hsz : 0 <= bd_fileSize b) by (destruct Hb as (_ & _ & _ & _ & ? & ? & ? & _); lia).
    pose proof (pf_alloc _ _ _ _ Pf _ _ Hq) as Hal; cbn [pl_alloc] in Hal.
    assert (I1 : cinv new (set_disk s0 d)).
    { apply (set_disk_ok new s0 b d I0 Hb Na); [cbn [cs_map s0 set_thr]; congruence| | |].
      - intros n N; apply on_file_other, N.
      - intros x Hcl f' Hf. unfold d in Hf; rewrite on_file_same in Hf.
        destruct (cs_disk s (bd_fileName b)) as [f|] eqn:Hf0; [|discriminate Hf]. injection Hf as <-.
        pose proof (ci_data _ _ _ _ _ _ _ I _ _ Hcl f Hf0) as K.
        destruct Hal as [Al|[Al|[Al|[Al|[Al|[]]]]]]; symmetry in Al.
        + exfalso. exact (ci_none _ _ _ _ _ _ _ I _ _ x Hq Al ltac:(congruence) Hcl).
        + congruence.
        + rewrite cut_id; [exact K|]. apply (pf_small _ _ _ _ Pf _ _ f Hq Al).
          cbn [pl_name]; symmetry; exact (Hs Al).
        + pose proof (pf_shrink _ _ _ _ Pf _ _ Hq Al) as Pre.
          destruct (Z_lt_le_dec x (bd_fileSize b)) as [Hx|Hx].
          * destruct K as [K|(q & pl & H1 & H2 & _ & H4 & _)].
            -- left; apply cut_keeps; assumption.
            -- destruct (same_file c p d0 infos Pf b q pl Hb H1 H2) as [-> ->]; cbn [pl_size] in H4; lia.
          * right. exists (bd_seqId b). eexists. split; [exact Hq|]. cbn [pl_name pl_alloc pl_size].
            repeat split; auto. apply cut_len; assumption.
        + congruence.
      - cbn [cs_map s0 set_thr]; congruence. }
    replace (set_thr (set_disk s d) i (with_op t (OAlloc b)))
      with (set_thr (set_disk s0 d) i (with_op t (OAlloc b)))
      by (unfold set_thr, set_disk, s0, set_thr; cbn [cs_thr cs_map cs_log cs_disk cs_marked];
          rewrite set_nth_twice; reflexivity).
    apply set_thr_ok; [exact I1| |].
    + assert (Hw1 : thr_ok (set_disk s0 d) (with_op t OIdle)).
      { apply (ci_thr _ _ _ _ _ _ _ I1 i). unfold s0; cbn [cs_thr set_disk set_thr].
        apply (nth_set_hit _ _ t); exact Hi. }
      split; [|exact (proj2 Hw1)]. cbn [ct_op with_op op_ok]. split; [exact Hb|]. split; [exact Hd|].
      split; [exact Hc|]. split; [exact Hm|]. intros Al f' Hf. cbn [cs_disk set_disk] in Hf.
      unfold d in Hf; rewrite on_file_same in Hf. destruct (cs_disk s (bd_fileName b)); [|discriminate].
      injection Hf as <-. apply cut_len; [exact Hsz|exact (pf_shrink _ _ _ _ Pf _ _ Hq Al)].
    + intros j u b1 b2 Hj _ A1 A2 Eq. injection A2 as <-. exact (Na _ _ _ Hj A1 (eq_sym Eq)).
  - (* fallocate *)
    destruct (ct_op t) eqn:Hop; try discriminate E; injection E as <-; apply Zero.
    cbn [op_ok] in Ho; destruct Ho as (Hb & Hd & Hc & Hm & Hs). pose proof (proj1 Hb) as Hq.
    destruct (drop_alloc new s i t b I Hi ltac:(rewrite Hop; reflexivity)) as [I0 Na].
    set (s0 := set_thr s i (with_op t OIdle)) in *.
    set (d := on_file (cs_disk s) (bd_fileName b) (grow_size c (bd_fileSize b))).
    assert (Hsz : 0 <= bd_fileSize b) by (destruct Hb as (_ & _ & _ & _ & ? & ? & ? & _); lia).
    assert (I1 : cinv new (set_disk s0 d)).
    { apply (set_disk_ok new s0 b d I0 Hb Na); [cbn [cs_map s0 set_thr]; congruence| | |].
      - intros n N; apply on_file_other, N.
      - intros x Hcl f' Hf. unfold d in Hf; rewrite on_file_same in Hf.
        destruct (cs_disk s (bd_fileName b)) as [f|] eqn:Hf0; [|discriminate Hf]. injection Hf as <-.
        destruct (ci_data _ _ _ _ _ _ _ I _ _ Hcl f Hf0) as [K|(q & pl & H1 & H2 & H3 & H4 & H5)].
        + left; apply grow_keeps, K.
        + right; exists q, pl; do 4 (split; [assumption|]).
          destruct (same_file c p d0 infos Pf b q pl Hb H1 H2) as [-> ->]; cbn [pl_size] in *.
          pose proof (grow_len c (bd_fileSize b) f Hsz); lia.
      - cbn [cs_map s0 set_thr]; congruence. }
    replace (set_thr (set_disk s d) i (with_op t (OInval b)))
      with (set_thr (set_disk s0 d) i (with_op t (OInval b)))
      by (unfold set_thr, set_disk, s0, set_thr; cbn [cs_thr cs_map cs_log cs_disk cs_marked];
          rewrite set_nth_twice; reflexivity).
    apply set_thr_ok; [exact I1| |].
    + assert (Hw1 : thr_ok (set_disk s0 d) (with_op t OIdle)).
      { apply (ci_thr _ _ _ _ _ _ _ I1 i). unfold s0; cbn [cs_thr set_disk set_thr].
        apply (nth_set_hit _ _ t); exact Hi. }
      split; [|exact (proj2 Hw1)]. cbn [ct_op with_op op_ok]. split; [exact Hb|]. split; [exact Hd|].
      split; [exact Hc|]. split; [exact Hm|]. intros Al f' Hf. cbn [cs_disk set_disk] in Hf.
      unfold d in Hf; rewrite on_file_same in Hf.
      destruct (cs_disk s (bd_fileName b)) as [f|] eqn:Hf0; [|discriminate].
      injection Hf as <-. pose proof (Hs Al f Hf0). pose proof (grow_len c (bd_fileSize b) f Hsz); lia.
    + intros j u b1 b2 Hj _ A1 A2 Eq. injection A2 as <-. exact (Na _ _ _ Hj A1 (eq_sym Eq)).
  - (* invalidation entry *)
    destruct (ct_op t) eqn:Hop; try discriminate E.
    cbn [op_ok] in Ho; destruct Ho as (Hb & Hd & Hc & Hm & Hs).
    destruct (drop_alloc new s i t b I Hi ltac:(rewrite Hop; reflexivity)) as [I0 Na].
    set (s0 := set_thr s i (with_op t OIdle)) in *.
    destruct (planned_entries ts b (proj1 Hcar) Hb) as (_ & _ & _ & _ & Ok).
    assert (Fin : forall new' m, cinv new' (set_log s0 m) ->
       cinv new' (set_log (set_thr s i (with_op t (OCreate b))) m)).
    { intros new' m I1.
      replace (set_log (set_thr s i (with_op t (OCreate b))) m)
        with (set_thr (set_log s0 m) i (with_op t (OCreate b)))
        by (unfold set_thr, set_log, s0, set_thr; cbn [cs_thr cs_map cs_log cs_disk cs_marked];
            rewrite set_nth_twice; reflexivity).
      apply set_thr_ok; [exact I1| |].
      - split; [|exact Hw]. exact (conj Hb (conj Hd (conj Hc (conj Hm Hs)))).
      - intros j u b1 b2 Hj _ A1 A2 Eq. injection A2 as <-. exact (Na _ _ _ Hj A1 (eq_sym Eq)). }
    destruct (bd_alloc b =? EXISTS_TOO_LARGE).
    + destruct (add_inval es new (cs_log s) ts (bd_prevSeqId b) (ci_log _ _ _ _ _ _ _ I) Ok) as (m & Em & Hl).
      rewrite Em in E; cbn [with_log] in E; injection E as <-.
      exists [LInval ts (bd_prevSeqId b)]. apply Fin.
      apply log_add_ok; [exact I0|exact Hl|exact Ok|exact Logic.I|discriminate|discriminate].
    + cbn [with_log] in E; injection E as <-. apply Zero, Fin. exact I0.
  - (* creation entry *)
    destruct (ct_op t) eqn:Hop; try discriminate E.
    cbn [op_ok] in Ho; destruct Ho as (Hb & Hd & Hc & Hm & Hs). pose proof (proj1 Hb) as Hq.
    destruct (drop_alloc new s i t b I Hi ltac:(rewrite Hop; reflexivity)) as [I0 Na].
    set (s0 := set_thr s i (with_op t OIdle)) in *.
    destruct (planned_entries ts b (proj1 Hcar) Hb) as (OkC & OkR & _).
    pose proof (pf_alloc _ _ _ _ Pf _ _ Hq) as Hal; cbn [pl_alloc] in Hal.
    assert (Fin : forall new' m, cinv new' (set_log s0 m) ->
       (forall n z post, incarnation (seg ++ new') (bd_seqId b) n z post -> n = bd_fileName b) ->
       cinv new' (set_log (set_thr (set_map s (bd_seqId b) AAllocated) i (with_op t (OWrite b 0 true))) m)).
    { intros new' m I1 Hn.
      assert (I2 : cinv new' (set_map (set_log s0 m) (bd_seqId b) AAllocated)).
      { apply set_map_ok; [exact I1|exact Na|cbn [cs_map s0 set_thr set_log]; congruence|].
        intros _ pl Hpl. assert (pl = {| pl_name := bd_fileName b; pl_size := bd_fileSize b;
          pl_alloc := bd_alloc b; pl_prev := bd_prevSeqId b |}) as -> by congruence.
        split; [exact Hn|exact Hs]. }
      replace (set_log (set_thr (set_map s (bd_seqId b) AAllocated) i (with_op t (OWrite b 0 true))) m)
        with (set_thr (set_map (set_log s0 m) (bd_seqId b) AAllocated) i (with_op t (OWrite b 0 true)))
        by (unfold set_thr, set_log, set_map, s0, set_thr; cbn [cs_thr cs_map cs_log cs_disk cs_marked];
            rewrite set_nth_twice; reflexivity).
      assert (Hw1 : thr_ok (set_map (set_log s0 m) (bd_seqId b) AAllocated) (with_op t OIdle)).
      { apply (ci_thr _ _ _ _ _ _ _ I2 i). unfold s0; cbn [cs_thr set_map set_log set_thr].
        apply (nth_set_hit _ _ t); exact Hi. }
      apply set_thr_quiet; [exact I2| |reflexivity]. split; [|exact (proj2 Hw1)].
      cbn [ct_op with_op op_ok]. split; [split; [exact Hb|split; [exact Hd|cbn; apply mput_same]]|].
      split; [destruct Hb as (_ & _ & _ & _ & ? & ? & _); lia|]. split; [|auto]. intros _ f x _ Hx; lia. }
    unfold create_entry in E. destruct ((bd_alloc b =? EXISTS_TOO_LARGE) || (bd_alloc b =? NOT_EXISTS)) eqn:Hk.
    + destruct (add_create es new (cs_log s) ts _ _ _ (ci_log _ _ _ _ _ _ _ I) OkC) as (m & Em & Hl).
      rewrite Em in E; cbn [with_log] in E; injection E as <-.
      eexists [_]. apply Fin.
      * apply log_add_ok; [exact I0|exact Hl|exact OkC|exact Logic.I|discriminate|].
        intros ts' n q z pl Eq Hpl _. injection Eq as <- <- <- <-.
        rewrite Hq in Hpl; injection Hpl as <-; reflexivity.
      * intros n z post Hinc. rewrite app_assoc in Hinc; apply incarnation_snoc in Hinc.
        destruct Hinc as [[_ [ts' Eq]]|(Ne & _)]; [congruence|]. exfalso; apply Ne; reflexivity.
    + destruct (add_resize es new (cs_log s) ts _ _ (ci_log _ _ _ _ _ _ _ I) OkR) as (m & Em & Hl).
      rewrite Em in E; cbn [with_log] in E; injection E as <-.
      assert (I1 : cinv (new ++ [LResize ts (bd_seqId b) (bd_fileSize b)]) (set_log s0 m))
        by (apply log_add_ok; [exact I0|exact Hl|exact OkR|exact Logic.I|discriminate|discriminate]).
      exists [LResize ts (bd_seqId b) (bd_fileSize b)]. apply Fin; [exact I1|].
      intros n z post Hinc.
      assert (Al : bd_alloc b = EXISTS_TOO_SMALL).
      { apply orb_false_iff in Hk; destruct Hk as [K1 K2]; apply Z.eqb_neq in K1, K2.
        destruct Hal as [Al|[Al|[Al|[Al|[Al|[]]]]]]; congruence. }
      exact (ci_name _ _ _ _ _ _ _ I1 _ _ _ _ _ Hq Hd (or_intror (or_intror Al)) Hinc).
  - (* write *)
    destruct (ct_op t) as [| | | | | |b n ok] eqn:Hop; try discriminate E.
    destruct (Z.leb_spec (n + zlen bs) (bd_dataSize b)) as [Hle|]; [|discriminate E].
    injection E as <-. apply Zero. exact (write_ok _ _ _ _ _ _ _ _ I Hi Hop Hcar Hle).
  - (* sync *)
    destruct (ct_op t) as [| | | | | |b n ok] eqn:Hop; try discriminate E.
    destruct (Z.eqb_spec n (bd_dataSize b)) as [->|]; [|discriminate E].
    injection E as <-. apply Zero. apply set_thr_quiet; [exact I| |reflexivity].
    split; [exact Logic.I|]. cbn [ct_wait]; apply Forall_app; split; [exact Hw|].
    constructor; [|constructor]. cbn [op_ok] in Ho. destruct Ho as (L & _ & G & V).
    split; [exact (proj1 L)|]. right; split; [exact L|]. split; [exact G|exact V].
  - (* mark *)
    destruct (ct_wait t) as [|[b ok] r] eqn:Hwt; [discriminate E|].
    destruct (negb (c_verify c) || ok) eqn:Hv; [|discriminate E].
    inversion Hw as [|? ? Hbw Hr]; subst. destruct Hbw as [Hb Hbw]; cbn [fst snd] in *.
    destruct (planned_entries ts b (proj1 Hcar) Hb) as (_ & _ & OkB & OkI & _).
    set (s0 := set_thr s i {| ct_op := ct_op t; ct_wait := r |}).
    assert (I0 : cinv new s0).
    { apply set_thr_ok; [exact I|split; [exact Ho|exact Hr]|].
      intros j u b1 b2 Hj Nj A1 A2 Eq; cbn [ct_op] in A2.
      exact (Nj (ci_uniq _ _ _ _ _ _ _ I _ _ _ _ _ _ Hj Hi A1 A2 (eq_sym Eq))). }
    unfold mark_entry in E. destruct (Z.eqb_spec (bd_alloc b) TO_BE_DELETED) as [Hd|Hd].
    + destruct (add_inval es new (cs_log s) ts _ (ci_log _ _ _ _ _ _ _ I) OkI) as (m & Em & Hl).
      rewrite Em in E; cbn [with_log] in E; injection E as <-.
      exists [LInval ts (bd_seqId b)].
      assert (I1 : cinv (new ++ [LInval ts (bd_seqId b)]) (set_log s0 m))
        by (apply log_add_ok; [exact I0|exact Hl|exact OkI|exact Logic.I|discriminate|discriminate]).
      destruct I1 as [Ilog Inew Idata Inone Iname Ismall Ilarge Ithr Iuniq Imark].
      constructor; try assumption. intros name x H; destruct (Imark _ _ H) as [V|(b' & Hin & Hcv)];
        [left; exact V|right; exists b'; split; [right; exact Hin|exact Hcv]].
    + destruct Hbw as [Hd'|(L & G & V)]; [contradiction|].
      assert (ok = true) as -> by (destruct (c_verify c); cbn [negb orb] in Hv; auto).
      destruct (add_block es new (cs_log s) ts _ _ _ (ci_log _ _ _ _ _ _ _ I) OkB) as (m & Em & Hl).
      rewrite Em in E; cbn [with_log] in E; injection E as <-.
      eexists [_]. exact (mark_ok new s0 b ts m I0 L (G eq_refl) OkB Hl).
  - (* drop *)
    injection E as <-. apply Zero. apply set_thr_ok; [exact I|split; [exact Ho|constructor]|].
    intros j u b1 b2 Hj Nj A1 A2 Eq; cbn [ct_op] in A2.
    exact (Nj (ci_uniq _ _ _ _ _ _ _ I _ _ _ _ _ _ Hj Hi A1 A2 (eq_sym Eq))).
  - (* fail *)
    assert (Idle : cinv new (set_thr s i (with_op t OIdle)))
      by (apply set_thr_quiet; [exact I|split; [exact Logic.I|exact Hw]|reflexivity]).
    assert (Fail : forall b, allocating (ct_op t) = Some b -> cs_map s (bd_seqId b) = Some AInProgress ->
       cinv new (set_thr (set_map s (bd_seqId b) AFailed) i (with_op t OIdle))).
    { intros b Ha Hm. destruct (drop_alloc new s i t b I Hi Ha) as [I0 Na].
      apply (set_map_ok new _ (bd_seqId b) AFailed) in I0;
        [exact I0|exact Na|cbn [cs_map set_thr]; congruence|discriminate]. }
    apply Zero. destruct (ct_op t) eqn:Hop; injection E as <-; try exact Idle;
      (apply Fail; [reflexivity|cbn [op_ok] in Ho; tauto]).
  - (* flush *)
    injection E as <-. apply Zero.
    destruct I as [Ilog Inew Idata Inone Iname Ismall Ilarge Ithr Iuniq Imark].
    constructor; try assumption. cbn [cs_log set_log]; apply logs_flush, Ilog.
Qed.
End Session.
