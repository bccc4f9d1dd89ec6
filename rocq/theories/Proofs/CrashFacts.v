(** Deaths of the receiver: what recovery reports is on disk. *)
From Verif Require Export Proofs.CrashStep.
From Coq Require Import Lia.

Local Opaque Z.pow.

(** ---- the entries that count ---- *)
Lemma common_tail {A} (a b s1 s2 : list A) : a ++ s1 = b ++ s2 -> (length s1 <= length s2)%nat ->
  exists c, s2 = c ++ s1 /\ a = b ++ c.
Proof.
  revert b; induction a as [|x a IH]; intros [|y b] E L; cbn in E.
  - subst; exists []; auto.
  - exfalso. apply (f_equal (@length A)) in E; cbn in E; rewrite app_length in E; lia.
  - exists (x :: a); subst; auto.
  - injection E as -> E. destruct (IH _ E L) as (c & -> & ->); exists c; auto.
Qed.
Lemma session_longer o es s1 s2 : current_session o es s1 -> current_session o es s2 ->
  (length s1 <= length s2)%nat -> s1 = s2.
Proof.
  intros [R1 C1] [R2 C2] L.
  destruct C1 as [[E1 _]|(pre1 & r1 & sk1 & h1 & t1 & E1 & X1 & K1 & H1 & M1)].
  - subst es. destruct C2 as [[E2 _]|(pre2 & r2 & sk2 & h2 & t2 & E2 & X2 & _)]; [exact E2|].
    exfalso. rewrite E2 in R1. apply Forall_app in R1; destruct R1 as [_ R1].
    inversion R1; contradiction.
  - destruct C2 as [[E2 _]|(pre2 & r2 & sk2 & h2 & t2 & E2 & X2 & K2 & H2 & M2)].
    + exfalso. rewrite <- E2, E1 in R2. apply Forall_app in R2; destruct R2 as [_ R2].
      inversion R2; contradiction.
    + rewrite E1 in E2.
      destruct (common_tail (pre1 ++ r1 :: sk1) (pre2 ++ r2 :: sk2) s1 s2) as (c & Ec & Ea);
        [rewrite <- !app_assoc; exact E2|exact L|].
      destruct c as [|x c]; [symmetry; exact Ec|exfalso].
      assert (x = h2) as -> by (rewrite H2 in Ec; injection Ec; auto).
      assert (Hc : forall e, In e (h2 :: c) -> ~ resets o e).
      { intros e He. rewrite Forall_forall in R2; apply R2; rewrite Ec; apply in_app_iff; auto. }
      assert (Hin : ~ In h2 sk1).
      { intros Hi. rewrite Forall_forall in K1; exact (K1 _ Hi M2). }
      clear - Ea Hc Hin X1.
      assert (L : (length sk1 < length (h2 :: c))%nat \/ (length (h2 :: c) <= length sk1)%nat) by lia.
      destruct L as [L|L].
      * destruct (common_tail pre1 (pre2 ++ r2 :: sk2) (r1 :: sk1) (h2 :: c)) as (e & E1 & _);
          [exact Ea|cbn [length] in *; lia|].
        apply (Hc r1); [rewrite E1; apply in_app_iff; right; left; reflexivity|exact X1].
      * destruct (common_tail (pre2 ++ r2 :: sk2) (pre1 ++ [r1]) (h2 :: c) sk1) as (e & E1 & _).
        -- rewrite <- Ea, <- app_assoc; reflexivity.
        -- exact L.
        -- apply Hin; rewrite E1; apply in_app_iff; right; left; reflexivity.
Qed.
Lemma session_unique o es s1 s2 : current_session o es s1 -> current_session o es s2 -> s1 = s2.
Proof.
  intros H1 H2. destruct (Nat.le_ge_cases (length s1) (length s2)).
  - eapply session_longer; eauto.
  - symmetry; eapply session_longer; eauto.
Qed.
Lemma session_more o a : forall es seg, current_session o es seg -> seg <> [] ->
  Forall (fun e => ~ resets o e) a -> current_session o (es ++ a) (seg ++ a).
Proof.
  induction a as [|e a IH]; intros es seg H N F; [rewrite !app_nil_r; exact H|].
  inversion F; subst. change (e :: a) with ([e] ++ a); rewrite !app_assoc. apply IH; auto.
  - apply session_snoc; auto. intros ->; destruct H as [_ [[<- _]|(pre & r & sk & h & t & E & _)]];
      [exact (N eq_refl)|destruct pre; discriminate].
  - destruct seg; discriminate.
Qed.
Lemma plain_no_reset o e : plain e -> ~ resets o e.
Proof. destruct e; cbn; tauto. Qed.

(** ---- recovery from a log with a torn end ---- *)
Lemma parse_tail now o es t ip r : po_parseOnly o = false -> Forall entry_ok es -> torn t ->
  parseLog now o (file_of (log_bytes es ++ t)) ip = Ret r -> pr_status r <> INVALID_LOG ->
  parseLog now o (file_of (log_bytes es)) ip = Ret r.
Proof.
  intros Hp Hok Ht E Hs.
  pose proof (parse_torn now o (bodies es) t ip (bodies_ok es Hok) Ht) as P.
  pose proof (parse_torn now o (bodies es) [] ip (bodies_ok es Hok) torn_nil) as Q.
  cbv zeta in P, Q; rewrite app_nil_r in Q; rewrite <- log_frames, Hp in P, Q.
  destruct (run o (bodies es) OK (p_init ip)) as [[[st s]|s]| | ].
  - rewrite Q, <- P; exact E.
  - destruct P as [q P]. rewrite P in E; injection E as <-. exfalso; apply Hs; reflexivity.
  - congruence.
  - congruence.
Qed.

Definition header (rid ip : list Z) (config ts : Z) : log_entry := LHeader ts 2 rid ip config.
Lemma header_ok rid ip config ts : in_nat63 ts -> in_nat63 config -> zlen rid + zlen ip <= 4103 ->
  entry_ok (header rid ip config ts).
Proof.
  intros Ht Hc Hl. pose proof (zlen_nonneg rid); pose proof (zlen_nonneg ip).
  assert (F : entry_fields_ok (header rid ip config ts)).
  { cbn. repeat split; try apply Ht; try apply Hc; try lia; vm_compute; reflexivity. }
  split; [exact F|]. apply entry_fits; [exact F|split; [reflexivity|exact Hl]].
Qed.
Lemma write_header ts m es m' : in_nat63 ts -> in_nat63 (tm_config m) ->
  zlen (tm_rid m) + zlen (tm_ip m) <= 4103 ->
  tm_open m = true -> tm_entries m = [] -> holds (tm_file m) es -> writeLogHeader ts m = Ret m' ->
  logs (es ++ [header (tm_rid m) (tm_ip m) (tm_config m) ts]) [] m'.
Proof.
  intros Ht Hc Hl Ho He [H1 H2] E. unfold writeLogHeader in E; rewrite Ho in E; cbn [negb] in E.
  destruct (header_ok _ _ _ _ Ht Hc Hl) as [F L].
  destruct (write_entry _ F L) as (d & Ed & Es).
  { intros ? ? ? ? ? Eq; injection Eq; auto. }
  cbn [encode_of header] in Ed; rewrite Ed in E; cbn [obind fst snd] in E.
  rewrite Es in E.
  destruct (Z.ltb_spec (zlen (entry_bytes (LHeader ts 2 (tm_rid m) (tm_ip m) (tm_config m)))) 0) as [Hn|_].
  { pose proof (zlen_nonneg (entry_bytes (LHeader ts 2 (tm_rid m) (tm_ip m) (tm_config m)))); lia. }
  injection E as <-. split; [reflexivity|]; split; [reflexivity|].
  exists [], []; split; [reflexivity|]; cbn [tm_file tm_entries]; split; [|exact He].
  destruct (tm_file m) as [fd fp]; cbn [lf_data lf_pos] in H1, H2; subst fd fp.
  rewrite fwrite_end, app_nil_r. unfold holds; cbn [lf_data lf_pos].
  rewrite log_bytes_app; cbn [log_bytes flat_map]; rewrite app_nil_r; split; reflexivity.
Qed.

(** What is logged as gone is no longer counted. *)
Lemma incarnation_after_gone now seg missing : forall q n z post,
  incarnation (seg ++ map (fun k => LInval (now k) k) missing) q n z post ->
  ~ In q missing /\ exists p0, incarnation seg q n z p0 /\ forall x, logged post q x <-> logged p0 q x.
Proof.
  induction missing as [|k missing IH] using rev_ind; intros q n z post H.
  - cbn in H; rewrite app_nil_r in H. split; [intros []|]; exists post; split; [exact H|tauto].
  - rewrite map_app, app_assoc in H; cbn [map] in H. apply incarnation_snoc in H.
    destruct H as [[_ [ts E]]|(Hn & p0 & -> & I)]; [discriminate|].
    destruct (IH _ _ _ _ I) as (Hm & p1 & I1 & Hl). split.
    + rewrite in_app_iff; intros [Hi|[->|[]]]; [exact (Hm Hi)|]. apply Hn; reflexivity.
    + exists p1; split; [exact I1|]. intros x; rewrite <- Hl. split; intros (ts & off & sz & Hi & Hx).
      * apply in_app_iff in Hi; destruct Hi as [Hi|[E|[]]]; [exists ts, off, sz; auto|discriminate].
      * exists ts, off, sz; split; [apply in_app_iff; auto|exact Hx].
Qed.

Section Sessions.
Context (c : ccfg) (rid : list Z) (config : Z).
Hypothesis Hconfig : in_nat63 config.

(** What the disk and the log have in common, whatever happened. *)
Definition agrees (d : disk) (seg : list log_entry) : Prop :=
  forall name x, vouched seg name x -> forall f, d name = Some f ->
    rd f x = Some (c_src c name x) \/ zlen f <= x.
Definition durable (d : disk) (log : list Z) : Prop :=
  exists es t, log = log_bytes es ++ t /\ torn t /\ Forall entry_ok es /\ Forall block_in_range es /\
    forall seg, current_session (disk_opts c rid config d) es seg -> agrees d seg.

(** A byte recovery reports is right on disk. *)
Lemma report_right d seg infos : faithful (disk_opts c rid config d) seg infos -> agrees d seg ->
  forall name x, reported infos name x ->
    exists f, d name = Some f /\ rd f x = Some (c_src c name x).
Proof.
  intros F A name x (f & Hf & <- & Hc).
  destruct (fa_reported _ _ _ F f Hf) as (n & z & post & I & [P _] & En & L & _ & W).
  rewrite En in *. cbn [po_disk disk_opts] in P. destruct (d n) as [v|] eqn:Hd; [|discriminate].
  injection P as P. exists v; split; [reflexivity|].
  assert (V : vouched seg n x) by (exists (fc_seqId f), z, post; split; [exact I|apply L, Hc]).
  destruct (A _ _ V v Hd) as [R|R]; [exact R|exfalso].
  destruct Hc as (iv & Hi & Hx). pose proof (proj2 (W _ Hi)). lia.
Qed.

(** What counts after a good recovery and the header is reported. *)
Lemma counted_reported now d seg missing h infos :
  faithful (disk_opts c rid config d) seg infos ->
  (forall q, In q missing <-> gone (disk_opts c rid config d) seg q) ->
  (forall q, ~ ends q h) -> (forall ts q o s, h <> LBlock ts q o s) ->
  forall q n z post, incarnation ((seg ++ map (fun k => LInval (now k) k) missing) ++ [h]) q n z post ->
  exists f, In f infos /\ fc_seqId f = q /\ fc_fileName f = n /\
    forall x, logged post q x -> covered (fc_chunks f) x.
Proof.
  intros F Hg Hh Hb q n z post I. apply incarnation_snoc in I.
  destruct I as [[_ [ts ->]]|(_ & p1 & -> & I)]; [exfalso; apply (Hh q); reflexivity|].
  apply incarnation_after_gone in I. destruct I as (Hm & p0 & I & L).
  assert (P : exists dsize, present (disk_opts c rid config d) n z dsize).
  { unfold present; cbn [po_disk po_prealloc disk_opts].
    destruct (d n) as [v|] eqn:Hd.
    - destruct (c_prealloc c) eqn:Hp; [destruct (Z_le_gt_dec z (zlen v)) as [Hz|Hz]|].
      + exists (zlen v); auto.
      + exfalso. apply Hm, Hg. exists n, z, p0; split; [exact I|]. intros ds [P1 P2].
        cbn [po_disk po_prealloc disk_opts] in P1, P2. rewrite Hd in P1; injection P1 as <-.
        specialize (P2 Hp); lia.
      + exists (zlen v); split; [reflexivity|discriminate].
    - exfalso. apply Hm, Hg. exists n, z, p0; split; [exact I|]. intros ds [P1 _].
      cbn [po_disk disk_opts] in P1. rewrite Hd in P1; discriminate. }
  destruct P as [ds P]. destruct (fa_complete _ _ _ F _ _ _ _ _ I P) as (f & Hf & E1 & E2 & _ & C).
  exists f; split; [exact Hf|]; split; [exact E1|]; split; [exact E2|].
  intros x (ts & off & sz & Hi & Hx). apply C, L. apply in_app_iff in Hi.
  destruct Hi as [Hi|[E|[]]]; [exists ts, off, sz; auto|exfalso; exact (Hb _ _ _ _ E)].
Qed.

(** The invariant holds when a session begins. *)
Lemma begins d log ip infos m p n : durable d log -> zlen rid + zlen ip <= 4103 ->
  starts c rid ip config d log infos m -> plan_fits c p d infos ->
  exists es seg, Forall entry_ok es /\ Forall block_in_range es /\ seg <> [] /\
    current_session (disk_opts c rid config d) es seg /\
    (forall name x, vouched seg name x -> reported infos name x) /\
    cinv c p d es seg [] (c_begin n d m).
Proof.
  intros (es & t & -> & Ht & Hok & Hbr & Hag) Hlen Hst Pf.
  set (o := disk_opts c rid config d) in *.
  assert (Rest : forall es' h seg', logs (es' ++ [h]) [] m ->
    (forall q n z post, incarnation seg' q n z post -> exists f, In f infos /\ fc_seqId f = q /\
       fc_fileName f = n /\ forall x, logged post q x -> covered (fc_chunks f) x) ->
    (forall name x, reported infos name x -> exists f, d name = Some f /\ rd f x = Some (c_src c name x)) ->
    cinv c p d (es' ++ [h]) seg' [] (c_begin n d m) /\
    (forall name x, vouched seg' name x -> reported infos name x)).
  { intros es' h seg' Hl Hinc Hright.
    assert (Hv : forall name x, vouched seg' name x -> reported infos name x).
    { intros name x (q & z & post & I & L). destruct (Hinc _ _ _ _ I) as (f & Hf & _ & En & C).
      exists f; split; [exact Hf|]; split; [exact En|apply C, L]. }
    split; [|exact Hv].
    assert (Hthr : forall i u, nth_error (repeat {| ct_op := OIdle; ct_wait := [] |} n) i = Some u ->
      u = {| ct_op := OIdle; ct_wait := [] |}).
    { intros i u Hi. apply nth_error_In, repeat_spec in Hi; exact Hi. }
    constructor; cbn [c_begin cs_log cs_disk cs_map cs_thr cs_marked].
    - exact Hl.
    - repeat split; constructor.
    - intros name x Hc f Hf; left. apply claims_nil, Hv, Hright in Hc.
      destruct Hc as (v & Hd & R); congruence.
    - intros q pl x Hq Ha _ Hc. apply claims_nil, Hv in Hc. exact (pf_new _ _ _ _ Pf _ _ Hq Ha _ Hc).
    - intros q pl nm z post Hq _ [Hm|Ha] I; [discriminate|]. rewrite app_nil_r in I.
      destruct (Hinc _ _ _ _ I) as (f & Hf & E1 & E2 & _). rewrite <- E2.
      exact (pf_same _ _ _ _ Pf _ _ _ Hq Ha Hf E1).
    - auto.
    - discriminate.
    - intros i u Hi; rewrite (Hthr _ _ Hi). split; [exact Logic.I|constructor].
    - intros i j u v b b' Hi _ A; rewrite (Hthr _ _ Hi) in A; discriminate.
    - intros name x Hc; left; apply claims_nil, Hc. }
  inversion Hst as [now r ts m' Hnow Hts Hparse HOK Hw E1 E2
                   |now r ts ts' m1 m' Hnow Hts Hts' Hparse HOK Hinv Hw E1 E2]; subst.
  - (* resuming *)
    apply parse_tail in Hparse; [|reflexivity|exact Hok|exact Ht|rewrite HOK; discriminate].
    destruct (recovery_faithful now o es [] eq_refl Hok Hbr Hnow) as (r' & Hp' & Hf & _).
    fold o in Hparse. rewrite Hparse in Hp'; injection Hp' as <-.
    destruct (Hf HOK) as (seg & missing & Hcur & Hfa & Hgone & Hholds).
    set (g := map (fun q => LInval (now q) q) missing) in *.
    apply (write_header _ _ (es ++ g)) in Hw; try assumption; try reflexivity.
    cbn [tm_rid tm_ip tm_config] in Hw. set (h := header rid ip config ts) in *.
    assert (Hgi : forall q, In q missing -> in_nat63 q).
    { intros q Hq. apply Hgone in Hq. destruct Hq as (nm & z & post & I & _).
      destruct (incarnation_In _ _ _ _ _ I) as [ts0 Hin]; apply (session_incl _ _ _ Hcur) in Hin.
      rewrite Forall_forall in Hok; destruct (Hok _ Hin) as [Hfo _]; cbn [entry_fields_ok] in Hfo; tauto. }
    assert (Hgok : Forall entry_ok g /\ Forall block_in_range g).
    { split; apply Forall_forall; intros e He; apply in_map_iff in He; destruct He as (q & <- & Hq);
        [|exact Logic.I].
      assert (F : entry_fields_ok (LInval (now q) q)) by (split; [apply Hnow|apply Hgi, Hq]).
      split; [exact F|apply entry_fits; [exact F|exact Logic.I]]. }
    destruct (Rest (es ++ g) h ((seg ++ g) ++ [h])) as [I V].
    + exact Hw.
    + apply (counted_reported now d seg missing h _ Hfa Hgone); [intros q []|intros; discriminate].
    + intros name x Hr. exact (report_right d seg _ Hfa (Hag _ Hcur) name x Hr).
    + exists ((es ++ g) ++ [h]), ((seg ++ g) ++ [h]).
      split; [apply Forall_app; split; [apply Forall_app; split; [exact Hok|apply Hgok]|]|].
      { constructor; [apply header_ok; assumption|constructor]. }
      split; [apply Forall_app; split; [apply Forall_app; split; [exact Hbr|apply Hgok]|]|].
      { constructor; [exact Logic.I|constructor]. }
      split; [destruct (seg ++ g); discriminate|]. split; [|split; [exact V|exact I]].
      destruct seg as [|e0 seg0].
      * assert (g = []) as ->.
        { destruct missing as [|q missing]; [reflexivity|exfalso].
          destruct (proj1 (Hgone q) (or_introl eq_refl)) as (nm & z & post & (pre & ts0 & E & _) & _).
          destruct pre; discriminate. }
        assert (es = []) as ->
          by (destruct Hcur as [_ [[-> _]|(? & ? & ? & ? & ? & _ & _ & _ & E & _)]]; [reflexivity|discriminate]).
        cbn. split; [constructor; [|constructor]|left].
        -- intros R. apply R. split; reflexivity.
        -- split; [reflexivity|right]. exists h, []. split; [reflexivity|split; reflexivity].
      * rewrite <- !app_assoc. apply session_more; [exact Hcur|discriminate|].
        apply Forall_app; split.
        -- apply Forall_forall; intros e He; apply in_map_iff in He; destruct He as (q & <- & _). intros [].
        -- constructor; [|constructor]. intros R; apply R; split; reflexivity.
  - (* anew *)
    apply parse_tail in Hparse; [|reflexivity|exact Hok|exact Ht|exact HOK].
    assert (Hh : exists g, holds (pr_file r) (es ++ g) /\ Forall entry_ok g /\ Forall block_in_range g).
    { pose proof (recover now o es [] eq_refl Hok Hbr Hnow) as R. fold o in Hparse.
      destruct (run o (bodies es) OK (p_init [])) as [[[st s]|s]| | ]; try contradiction.
      - destruct R as (Iv & _ & R). rewrite Hparse in R. destruct (Z.eqb_spec st OK) as [->|Hst']; injection R as ->.
        + exists (gone_entries now (p_invalid s)). split; [split; reflexivity|].
          destruct (i_ok _ _ _ _ Iv eq_refl) as (seg & Hc & D & _).
          split; apply Forall_forall; intros e He; apply in_map_iff in He; destruct He as (q & <- & Hq);
            [|exact Logic.I].
          assert (Q : in_nat63 q).
          { apply zmem_In in Hq. destruct (d_invalid _ _ _ D _ Hq) as (nm & z & post & Inc & _).
            destruct (incarnation_In _ _ _ _ _ Inc) as [ts0 Hin]; apply (session_incl _ _ _ Hc) in Hin.
            rewrite Forall_forall in Hok; destruct (Hok _ Hin) as [Hfo _]; cbn [entry_fields_ok] in Hfo; tauto. }
          assert (F : entry_fields_ok (LInval (now q) q)) by (split; [apply Hnow|exact Q]).
          split; [exact F|apply entry_fits; [exact F|exact Logic.I]].
        + exists []. rewrite app_nil_r. split; [split; reflexivity|split; constructor].
      - destruct R as [pp R]. rewrite Hparse in R; injection R as ->. exfalso; apply HOK; reflexivity. }
    destruct Hh as (g & Hh & Hg1 & Hg2).
    destruct (write_dir_inval ts _ (es ++ g) Hts (eq_refl : tm_open {| tm_open := true; tm_file := pr_file r;
      tm_rid := rid; tm_ip := ip; tm_config := config; tm_entries := []; tm_status := pr_status r;
      tm_headerWritten := false |} = true) Hh) as (m2 & E2 & H2 & _ & Ho2).
    rewrite Hinv in E2; injection E2 as <-.
    assert (K : tm_rid m1 = rid /\ tm_ip m1 = ip /\ tm_config m1 = config /\ tm_entries m1 = []).
    { unfold invalidateDirectory in Hinv; cbn [tm_open negb] in Hinv.
      destruct (encodeDirectoryInvalidationEntry ts entry_buf kMaxEntryLength); try discriminate.
      cbn [obind] in Hinv; injection Hinv as <-; auto. }
    destruct K as (K1 & K2 & K3 & K4).
    apply (write_header _ _ ((es ++ g) ++ [LDirInval ts])) in Hw;
      [|exact Hts'|rewrite K3; exact Hconfig|rewrite K1, K2; exact Hlen|exact Ho2|exact K4|exact H2].
    rewrite K1, K2, K3 in Hw. set (h := header rid ip config ts') in *.
    assert (NoInc : forall q nm z post, ~ incarnation [h] q nm z post).
    { intros q nm z post; apply incarnation_one; intros []. }
    destruct (Rest ((es ++ g) ++ [LDirInval ts]) h [h]) as [I V].
    + exact Hw.
    + intros q nm z post I; exfalso; exact (NoInc _ _ _ _ I).
    + intros name x (f & [] & _).
    + exists (((es ++ g) ++ [LDirInval ts]) ++ [h]), [h].
      assert (FD : entry_ok (LDirInval ts)).
      { split; [exact Hts|apply entry_fits; [exact Hts|exact Logic.I]]. }
      split; [repeat (apply Forall_app; split); auto; constructor; auto; apply header_ok; assumption|].
      split; [repeat (apply Forall_app; split); auto; repeat constructor|].
      split; [discriminate|]. split; [|split; [exact V|exact I]].
      split; [constructor; [|constructor]; intros R; apply R; split; reflexivity|right].
      exists (es ++ g), (LDirInval ts), [], h, []. rewrite <- app_assoc. repeat split; auto.
Qed.

Lemma run_ok p d es seg infos s0 s : plan_fits c p d infos ->
  (forall name x, vouched seg name x -> reported infos name x) ->
  cinv c p d es seg [] s0 -> careful_run c p infos s0 s -> exists new, cinv c p d es seg new s.
Proof.
  intros Pf Hv I0 R. induction R as [s|s1 l s2 s3 R IH Hc Hs]; [exists []; exact I0|].
  destruct (IH I0) as [new I]. destruct (step_ok c p d infos es seg Pf Hv new s2 l s3 I Hc Hs) as [e I'].
  exists (new ++ e); exact I'.
Qed.

(** ---- death ---- *)
Lemma whole_prefix_entries un : forall k, exists a b, un = a ++ b /\ whole_prefix (bodies un) k = bodies a.
Proof.
  induction un as [|e un IH]; intros k; [exists [], []; auto|].
  cbn [bodies map whole_prefix]. destruct (_ <=? k)%nat.
  - destruct (IH (k - length (frame (entry_body e)))%nat) as (a & b & E & E').
    exists (e :: a), b; split; [rewrite E; reflexivity|cbn; f_equal; exact E'].
  - exists [], (e :: un); auto.
Qed.
Lemma dies p d es seg new s k : Forall entry_ok es -> Forall block_in_range es -> seg <> [] ->
  current_session (disk_opts c rid config d) es seg -> cinv c p d es seg new s ->
  durable (cs_disk s) (log_after_death k s).
Proof.
  intros Hok Hbr Hne Hcur I.
  destruct (ci_log _ _ _ _ _ _ _ I) as (_ & _ & fl & un & En & [H1 H2] & Eu).
  destruct (ci_new _ _ _ _ _ _ _ I) as (N1 & N2 & N3).
  unfold log_after_death. rewrite Eu, concat_entries.
  destruct (tm_file (cs_log s)) as [fd fp]; cbn [lf_data lf_pos] in H1, H2; subst fd fp.
  rewrite fwrite_end; cbn [lf_data].
  rewrite En in N1, N2, N3. apply Forall_app in N1, N2, N3.
  destruct N1 as [F1 U1], N2 as [F2 U2], N3 as [F3 U3].
  set (k' := Nat.min k (length (log_bytes un))).
  assert (Ek : firstn k (log_bytes un) = firstn k' (log_bytes un)).
  { unfold k'. destruct (Nat.le_ge_cases k (length (log_bytes un))).
    - rewrite Nat.min_l; auto.
    - rewrite Nat.min_r, firstn_all by lia. apply firstn_all2; lia. }
  rewrite Ek, (log_frames un).
  destruct (prefix_split (bodies un) k' (bodies_ok un U1)) as (t & Et & Ht).
  { rewrite <- log_frames; unfold k'; lia. }
  rewrite Et. destruct (whole_prefix_entries un k') as (a & b & Eab & Ew). rewrite Ew, <- log_frames.
  rewrite Eab in U1, U2, U3. apply Forall_app in U1, U2, U3.
  exists ((es ++ fl) ++ a), t. split; [rewrite !log_bytes_app, <- !app_assoc; reflexivity|].
  split; [exact Ht|].
  split; [apply Forall_app; split; [apply Forall_app; split; assumption|apply U1]|].
  split; [apply Forall_app; split; [apply Forall_app; split; assumption|apply U2]|].
  intros seg' Hcur'.
  assert (Hmore : current_session (disk_opts c rid config d) ((es ++ fl) ++ a) ((seg ++ fl) ++ a)).
  { rewrite <- !app_assoc. apply session_more; [exact Hcur|exact Hne|].
    apply Forall_app; split; [eapply Forall_impl; [|exact F3]|eapply Forall_impl; [|exact (proj1 U3)]];
      intros e; apply plain_no_reset. }
  assert (seg' = (seg ++ fl) ++ a) as -> by exact (session_unique _ _ _ _ Hcur' Hmore).
  intros name x Hv f Hf.
  assert (Hc : claims seg new name x).
  { exists (fl ++ a), b. rewrite En, Eab, app_assoc. split; [reflexivity|]. rewrite app_assoc; exact Hv. }
  destruct (ci_data _ _ _ _ _ _ _ I _ _ Hc f Hf) as [R|(q & pl & _ & _ & _ & L1 & L2)]; [left; exact R|right; lia].
Qed.

Lemma survives_durable d log : survives c rid config d log -> durable d log.
Proof.
  induction 1 as [d|d log name H IH|d log ip infos m p n s k H IH Hlen Hst Pf Hrun].
  - exists [], []; split; [reflexivity|]; split; [left; reflexivity|]; split; [constructor|]; split; [constructor|].
    intros seg [_ [[<- _]|(pre & r & sk & h & t & E & _)]]; [|destruct pre; discriminate].
    intros name x (q & z & post & (pre & ts & E & _) & _); destruct pre; discriminate.
  - destruct IH as (es & t & E & Ht & Hok & Hbr & Ha). exists es, t. do 4 (split; [assumption|]).
    intros seg Hc nm x Hv f Hf. apply (Ha seg Hc nm x Hv).
    destruct (list_eq_dec Z.eq_dec nm name) as [->|N]; [rewrite dput_same in Hf; discriminate|].
    rewrite dput_other in Hf; assumption.
  - destruct (begins d log ip infos m p n IH Hlen Hst Pf) as (es & seg & H1 & H2 & H3 & H4 & H5 & H6).
    destruct (run_ok p d es seg infos _ s Pf H5 H6 Hrun) as [new I].
    exact (dies p d es seg new s k H1 H2 H3 H4 I).
Qed.

(** C52. *)
Lemma recovered_on_disk d log now r : survives c rid config d log -> (forall q, in_nat63 (now q)) ->
  parseLog now (disk_opts c rid config d) (file_of log) [] = Ret r ->
  forall name x, reported (pr_infos r) name x ->
    exists f, d name = Some f /\ rd f x = Some (c_src c name x).
Proof.
  intros H Hnow Hp name x Hr. destruct (survives_durable _ _ H) as (es & t & -> & Ht & Hok & Hbr & Ha).
  set (o := disk_opts c rid config d) in *.
  assert (Hs : pr_status r = OK).
  { destruct (Z.eq_dec (pr_status r) OK) as [E|E]; [exact E|exfalso].
    assert (pr_infos r = []) as X.
    { unfold parseLog in Hp. destruct (parse_loop _ _ _ _ _) as [[[[st f] s]|[f s]]| | ]; cbn [obind] in Hp;
        try discriminate.
      - destruct (st =? OK); [|injection Hp as <-; reflexivity].
        destruct (writeFileInvalidationEntries _ _ _); cbn [obind] in Hp; try discriminate.
        injection Hp as <-. exfalso; apply E; reflexivity.
      - injection Hp as <-; reflexivity. }
    rewrite X in Hr. destruct Hr as (f & [] & _). }
  apply parse_tail in Hp; [|reflexivity|exact Hok|exact Ht|rewrite Hs; discriminate].
  destruct (recovery_faithful now o es [] eq_refl Hok Hbr Hnow) as (r' & Hp' & Hf & _).
  rewrite Hp in Hp'; injection Hp' as <-. destruct (Hf Hs) as (seg & missing & Hcur & Hfa & _).
  exact (report_right d seg _ Hfa (Ha _ Hcur) name x Hr).
Qed.
End Sessions.

Lemma recovered_pieces : forall c rid config d log now r name x,
  in_nat63 config -> survives c rid config d log -> (forall q, in_nat63 (now q)) ->
  parseLog now (disk_opts c rid config d) (file_of log) [] = Ret r ->
  reported (pr_infos r) name x ->
  exists f, d name = Some f /\ rd f x = Some (c_src c name x).
Proof.
  intros c rid config d log now r name x Hc H Hn Hp.
  exact (recovered_on_disk c rid config Hc d log now r H Hn Hp name x).
Qed.
