(** Whole sessions of the log. *)
From Coq Require Import Lia.
From Verif Require Export Proofs.LogSessionFacts.
Import ListNotations.
Open Scope Z_scope.

Lemma events_ok evs : times_ok evs -> Forall entry_ok (asked evs) -> Forall ev_ok evs.
Proof.
  induction evs as [|e evs IH]; intros T A; [constructor|].
  assert (T' : times_ok evs) by (intros t [H|H]; apply T; [left|right]; right; exact H).
  destruct e as [| | | |t|t| |a| | |k| | |]; cbn [asked] in A;
    try (constructor; [exact I|exact (IH T' A)]).
  - constructor; [apply T; left; left; reflexivity|exact (IH T' A)].
  - constructor; [apply T; right; left; reflexivity|exact (IH T' A)].
  - inversion A; subst. constructor; [assumption|exact (IH T' H2)].
Qed.
Lemma reliable_all evs : no_failure evs -> Forall reliable evs.
Proof.
  intros N. apply Forall_forall. intros e Hi. destruct e; try exact I. exact (N _ Hi).
Qed.

Lemma start_ok ts disabled peer m es : recovered m es -> in_nat63 ts ->
  exists s pre, ls_start ts disabled peer m = Ret s /\ marks pre /\ ls_funnel s = FuStart /\
    frame_ok (tm_rid m) peer (tm_config m) false s /\
    placed es (tm_status m =? OK) [] pre [] [] s.
Proof.
  intros [R1 R2 R3 R4] Ht. unfold ls_start, verifySenderIp. rewrite R1. cbn [negb].
  destruct (disabled || (zlen (tm_ip m) =? 0) || str_eqb (tm_ip m) peer).
  - cbn [obind snd]. eexists _, []. split; [reflexivity|]. split; [constructor|]. split; [reflexivity|].
    split; [constructor; cbn; rewrite ?R1; auto; discriminate|].
    constructor; cbn; auto; rewrite ?app_nil_r; auto; try discriminate.
    + destruct (tm_status m =? OK); discriminate.
    + intros H. rewrite H. discriminate.
  - destruct (add_dir_inval ts m es Ht R1) as (m' & E & A1 & A2 & A3 & A4 & A5 & A6 & A7).
    rewrite E. cbn [obind snd]. eexists _, [LDirInval ts]. split; [reflexivity|].
    split; [constructor; [eauto|constructor]|]. split; [reflexivity|].
    split; [constructor; cbn; rewrite ?A2, ?A3, ?A5, ?A7; auto; discriminate|].
    constructor; cbn; rewrite ?A4; auto; try discriminate.
    + destruct (tm_status m =? OK); discriminate.
    + intros H. rewrite H. discriminate.
Qed.

Lemma session_runs ts disabled peer m es evs : session_ok ts peer m es evs ->
  match session ts disabled peer m evs with None => True | Some (Ret _) => True | Some _ => False end.
Proof.
  intros [R S C F T A]. destruct (start_ok ts disabled peer m es R S) as (s & pre & E & _ & _ & K & _).
  unfold session. rewrite E. exact (frame_run _ _ _ C F evs false s K (events_ok evs T A)).
Qed.

(** What is on disk is a part of what was taken, in the same order. *)
Lemma on_disk ts disabled peer m es evs s : session_ok ts peer m es evs -> no_failure evs ->
  session ts disabled peer m evs = Some (Ret s) ->
  exists disk, holds (tm_file (ls_m s)) (es ++ disk) /\
    (exists n, filter about_file disk = firstn n (taken false evs)) /\
    (tm_status m = OK -> tm_open (ls_m s) = false -> filter about_file disk = taken false evs).
Proof.
  intros [R S C F T A] N E0. destruct (start_ok ts disabled peer m es R S) as (s0 & pre & E & _ & _ & K & P).
  unfold session in E0. rewrite E in E0.
  pose proof (run_ok es _ _ _ _ C F evs false [] pre [] [] s0 K P (events_ok evs T A) (reliable_all evs N)) as X.
  rewrite E0 in X. cbn [app] in X. destruct X as (K' & disk & batch & mem & P').
  exists disk. split; [exact (p_file _ _ _ _ _ _ _ P')|].
  pose proof (p_acc _ _ _ _ _ _ _ P') as Q. split.
  - exists (length (filter about_file disk)). rewrite <- Q, firstn_app, firstn_all, Nat.sub_diag, app_nil_r. reflexivity.
  - intros Hs Ho. pose proof (k_closed _ _ _ _ _ K' Ho) as W.
    destruct P' as [_ _ _ _ P5 _ P7 _ P9]. rewrite Hs in P9. specialize (P9 eq_refl W). apply P7 in P9.
    destruct P9 as [-> _]. rewrite P5 in Q by (rewrite W; discriminate). rewrite !app_nil_r in Q. exact Q.
Qed.

(** ** Sessions in which nothing is added before the header *)
Fixpoint inv_end (inv : bool) (evs : list lev) : bool :=
  match evs with [] => inv | e :: r => inv_end (inv_after inv e) r end.
Fixpoint fail_end (fl : bool) (evs : list lev) : bool :=
  match evs with [] => fl | e :: r => fail_end (fail_after fl e) r end.

Lemma good_run es rid peer config started (Hc : in_nat63 config) (Hf : zlen rid + zlen peer <= 4103) evs :
  forall fl inv hdr acc s, good es rid peer config started fl inv hdr acc s -> Forall ev_ok evs ->
  hdr = true \/ header_first evs ->
  match ls_run evs s with
  | None => True
  | Some (Ret s') => good es rid peer config started (fail_end fl evs) (inv_end inv evs) (hdr_end hdr evs) (acc ++ taken hdr evs) s'
  | Some _ => False
  end.
Proof.
  induction evs as [|e evs IH]; intros fl inv hdr acc s G He Ho.
  - cbn. rewrite app_nil_r. exact G.
  - inversion He as [|? ? E1 E2]; subst. rewrite taken_cons. cbn [ls_run hdr_end inv_end fail_end].
    assert (O : ordered hdr e) by (destruct e; try exact I; destruct Ho as [Ho|[]]; exact Ho).
    assert (O' : hdr_after hdr e = true \/ header_first evs).
    { destruct Ho as [->|Ho]; [left; destruct e; reflexivity|].
      destruct e; try (right; exact Ho); try contradiction. left; reflexivity. }
    pose proof (good_step es rid peer config started Hc Hf fl inv hdr acc s e G E1 O) as S.
    destruct (ls_step s e) as [[s'| |]|]; try exact S. rewrite app_assoc. exact (IH _ _ _ _ _ S E2 O').
Qed.
Lemma taken_all evs : taken true evs = asked evs.
Proof. induction evs as [|[] evs IH]; cbn; rewrite ?IH; reflexivity. Qed.
Lemma taken_asked evs : header_first evs -> taken false evs = asked evs.
Proof.
  induction evs as [|e evs IH]; intros H; [reflexivity|].
  destruct e; cbn [taken asked header_first] in *; try (exact (IH H)); [apply taken_all|contradiction].
Qed.
Lemma hdr_end_true evs : hdr_end true evs = true.
Proof. induction evs as [|[] evs IH]; auto. Qed.
Lemma hdr_end_in t evs : forall h, In (LvHeader t) evs -> hdr_end h evs = true.
Proof.
  induction evs as [|e evs IH]; intros h []; [subst; apply hdr_end_true|]. cbn [hdr_end]. auto.
Qed.
Lemma inv_end_true evs : inv_end true evs = true.
Proof. induction evs as [|[] evs IH]; auto. Qed.
Lemma inv_end_in t evs : forall h, In (LvInvalidate t) evs -> inv_end h evs = true.
Proof.
  induction evs as [|e evs IH]; intros h []; [subst; apply inv_end_true|]. cbn [inv_end]. auto.
Qed.
Lemma fail_end_none evs : no_failure evs -> fail_end false evs = false.
Proof.
  induction evs as [|e evs IH]; intros N; [reflexivity|].
  assert (N' : no_failure evs) by (intros k H; apply (N k); right; exact H).
  destruct e; try exact (IH N'). exfalso. apply (N k). left. reflexivity.
Qed.

Lemma session_log ts disabled peer m es evs s : session_ok ts peer m es evs -> header_first evs ->
  (exists t, In (LvHeader t) evs) -> session ts disabled peer m evs = Some (Ret s) ->
  exists pre t k, in_nat63 t /\ marks pre /\ ((exists i, In (LvInvalidate i) evs) -> ends_marked pre) /\
    lf_data (tm_file (ls_m s)) = firstn k (log_bytes (es ++ pre ++ header_of t peer m :: asked evs)) /\
    (length (log_bytes (es ++ pre ++ [header_of t peer m])) <= k <= length (log_bytes (es ++ pre ++ header_of t peer m :: asked evs)))%nat /\
    (no_failure evs -> tm_status m = OK -> tm_open (ls_m s) = false ->
       k = length (log_bytes (es ++ pre ++ header_of t peer m :: asked evs))).
Proof.
  intros [R S C F T A] Hf [th Hh] E0. destruct (start_ok ts disabled peer m es R S) as (s0 & pre0 & E & Hm & Hs & K & P).
  unfold session in E0. rewrite E in E0.
  pose proof (good_run es _ _ _ (tm_status m =? OK) C F evs false false false [] s0) as X.
  rewrite E0 in X. cbn [app] in X. rewrite (hdr_end_in th evs _ Hh), (taken_asked _ Hf) in X.
  destruct X as (K' & X); [|exact (events_ok evs T A)|right; exact Hf|].
  { split; [exact K|]. left. exists pre0, [], []. split; [exact P|]. cbn. split; [reflexivity|]. split; [exact Hm|]. discriminate. }
  destruct X as [(disk & batch & mem & P' & L)|(Fl & _ & _ & _ & pre & t & k & C0 & C3 & C4 & C5 & C6)].
  - cbn [laid_out] in L. destruct L as (pre & t & rest & -> & L0 & L1 & L2 & L3).
    change (hdr_entry (tm_rid m) peer (tm_config m) t) with (header_of t peer m) in *.
    pose proof (p_acc _ _ _ _ _ _ _ P') as Q. rewrite filter_app in Q. cbn [filter about_file header_of] in Q.
    rewrite (filter_marks _ L1), (filter_all _ L2) in Q. cbn [app] in Q.
    assert (Eq : log_bytes (es ++ pre ++ header_of t peer m :: asked evs) =
                 log_bytes (es ++ pre ++ header_of t peer m :: rest) ++ log_bytes (batch ++ mem)).
    { rewrite <- log_bytes_app, <- Q. f_equal. rewrite <- !app_assoc. reflexivity. }
    exists pre, t, (length (log_bytes (es ++ pre ++ header_of t peer m :: rest))).
    split; [exact L0|]. split; [exact L1|]. split; [intros [i Hi]; apply L3, (inv_end_in i), Hi|].
    destruct (p_file _ _ _ _ _ _ _ P') as [D _]. rewrite Eq. split; [|split].
    + rewrite firstn_app, firstn_all, Nat.sub_diag, app_nil_r. exact D.
    + rewrite app_length. split; [|lia].
      change (header_of t peer m :: rest) with ([header_of t peer m] ++ rest).
      rewrite !app_assoc, (log_bytes_len_app (_ ++ [_]) rest). lia.
    + intros _ Ho Hcl. pose proof (k_closed _ _ _ _ _ K' Hcl) as W.
      destruct P' as [_ _ _ _ P5 _ P7 _ P9]. rewrite Ho in P9. specialize (P9 eq_refl W). apply P7 in P9.
      destruct P9 as [-> _]. rewrite P5 by (rewrite W; discriminate). cbn. rewrite app_nil_r. reflexivity.
  - change (hdr_entry (tm_rid m) peer (tm_config m) t) with (header_of t peer m) in *.
    exists pre, t, k. split; [exact C0|]. split; [exact C3|]. split; [intros [i Hi]; apply C4, (inv_end_in i), Hi|].
    split; [exact C5|]. split; [exact C6|]. intros N. rewrite (fail_end_none _ N) in Fl. discriminate Fl.
Qed.

(** ** What a recovery reports from such a file *)
Lemma header_ok t peer m : in_nat63 t -> in_nat63 (tm_config m) -> zlen (tm_rid m) + zlen peer <= 4103 ->
  entry_ok (header_of t peer m).
Proof.
  intros Ht Hc Hl.
  assert (F : entry_fields_ok (header_of t peer m)).
  { pose proof (zlen_nonneg (tm_rid m)). pose proof (zlen_nonneg peer).
    cbn. split; [exact Ht|]. split; [split; vm_compute; [discriminate|reflexivity]|]. split; [exact Hc|].
    change (2 ^ 63) with 9223372036854775808. lia. }
  split; [exact F|]. apply entry_fits; [exact F|]. cbn. auto.
Qed.
Lemma session_from_mark o a t h rest seg : current_session o (a ++ LDirInval t :: h :: rest) seg ->
  Forall (fun e => about_file e = true) rest -> seg = h :: rest.
Proof.
  intros [Hs [[E _]|(pre & r' & sk & h' & rest' & E & _ & _ & -> & Hm)]] Hr.
  - exfalso. rewrite Forall_forall in Hs. apply (Hs (LDirInval t)); [rewrite <- E; apply in_elt|exact I].
  - replace (pre ++ r' :: sk ++ h' :: rest') with ((pre ++ r' :: sk) ++ h' :: rest') in E by (rewrite <- app_assoc; reflexivity).
    destruct (last_reset a (LDirInval t) (h :: rest) _ _ I Hs E) as [c Hc].
    destruct c as [|x c]; [symmetry; exact Hc|]. exfalso. injection Hc as <- Hc.
    rewrite Hc in Hr. apply Forall_app in Hr. destruct Hr as [_ Hr]. inversion Hr as [|? ? H1 _]; subst.
    destruct h'; try contradiction. discriminate H1.
Qed.
Lemma bodies_bytes l : flat_map frame (bodies l) = log_bytes l.
Proof. unfold bodies, log_bytes, entry_bytes. induction l as [|e l IH]; [reflexivity|]. cbn [map flat_map]. rewrite IH. reflexivity. Qed.
Lemma whole_entries a : forall l k, (length (log_bytes a) <= k)%nat ->
  exists n, whole_prefix (bodies (a ++ l)) k = bodies (a ++ firstn n l) /\
    (length (log_bytes (a ++ l)) <= k -> n = length l)%nat.
Proof.
  induction a as [|e a IH].
  - induction l as [|e l IH]; intros k Hk; [exists O; split; reflexivity|].
    cbn [app bodies map whole_prefix]. fold (bodies l).
    destruct (Nat.leb_spec (length (frame (entry_body e))) k) as [H|H].
    + destruct (IH (k - length (frame (entry_body e)))%nat) as (n & E & Hn); [cbn; lia|].
      exists (S n). cbn [app] in E. rewrite E. split; [reflexivity|]. cbn [app log_bytes flat_map length].
      rewrite app_length. fold (log_bytes l). intros Hl. f_equal. apply Hn. cbn [app].
      unfold entry_bytes in Hl. lia.
    + exists O. split; [reflexivity|]. cbn [log_bytes flat_map length]. rewrite app_length. unfold entry_bytes. lia.
  - intros l k Hk. cbn [log_bytes flat_map] in Hk. rewrite app_length in Hk. fold (log_bytes a) in Hk.
    unfold entry_bytes in Hk. cbn [app bodies map whole_prefix]. fold (bodies (a ++ l)).
    destruct (Nat.leb_spec (length (frame (entry_body e))) k) as [H|H]; [|lia].
    destruct (IH l (k - length (frame (entry_body e)))%nat) as (n & E & Hn); [lia|].
    exists n. rewrite E. split; [reflexivity|]. cbn [log_bytes flat_map]. rewrite app_length.
    fold (log_bytes (a ++ l)). unfold entry_bytes at 1. intros Hl. apply Hn. lia.
Qed.
Lemma marks_ok l : marks l -> Forall entry_ok l /\ Forall block_in_range l.
Proof.
  induction 1 as [|x l (t & -> & Ht) _ [I1 I2]]; [split; constructor|].
  split; constructor; auto; [|exact I]. split; [exact Ht|apply entry_fits; [exact Ht|exact I]].
Qed.
Lemma asked_files evs : Forall (fun e => about_file e = true) (asked evs).
Proof. induction evs as [|e evs IH]; [constructor|]. destruct e; try exact IH. constructor; [apply entry_about|exact IH]. Qed.
Lemma Forall_firstn {A} (P : A -> Prop) n l : Forall P l -> Forall P (firstn n l).
Proof. intros H. revert n. induction H; intros [|n]; cbn; constructor; auto. Qed.

Lemma session_recovery now o ip ts disabled peer m es evs s :
  session_ok ts peer m es evs -> ranges_ok es evs -> header_first evs -> begins_anew evs ->
  session ts disabled peer m evs = Some (Ret s) ->
  po_parseOnly o = false -> (forall q, in_nat63 (now q)) ->
  exists r, parseLog now o (file_of (lf_data (tm_file (ls_m s)))) ip = Ret r /\
    (pr_status r <> OK -> pr_infos r = []) /\
    (pr_status r = OK -> exists t n,
       faithful o (header_of t peer m :: firstn n (asked evs)) (pr_infos r) /\
       (no_failure evs -> tm_status m = OK -> tm_open (ls_m s) = false -> n = length (asked evs))).
Proof.
  intros So (B1 & B2 & B3) Hf [Hi Hh] E Hp Hn.
  destruct (session_log ts disabled peer m es evs s So Hf Hh E) as (pre & t & k & T & M & L & D & K & Z).
  specialize (L Hi). destruct L as (pre' & ti & ->).
  set (a := es ++ (pre' ++ [LDirInval ti]) ++ [header_of t peer m]).
  assert (Ea : forall l, es ++ (pre' ++ [LDirInval ti]) ++ header_of t peer m :: l = a ++ l).
  { intros l. unfold a. rewrite <- !app_assoc. reflexivity. }
  rewrite !Ea, app_nil_r in K. rewrite Ea in D, Z.
  destruct So as [_ _ So1 So2 _ So3].
  assert (Oa : Forall entry_ok a /\ Forall block_in_range a).
  { destruct (marks_ok _ M) as [M1 M2]. unfold a. split; apply Forall_app; split; auto; apply Forall_app; split; auto;
      constructor; auto; [apply header_ok; auto|exact I]. }
  destruct Oa as [Oa1 Oa2].
  assert (Ok : Forall entry_ok (a ++ asked evs)) by (apply Forall_app; auto).
  destruct (whole_entries a (asked evs) k) as (n & W & Wn); [lia|].
  destruct (torn_tail now o (bodies (a ++ asked evs)) k ip (bodies_ok _ Ok)) as [X _]; [rewrite bodies_bytes; lia|exact Hp|].
  rewrite W, !bodies_bytes, <- D in X.
  destruct (recovery_faithful now o (a ++ firstn n (asked evs)) ip Hp) as (r & Er & R1 & R2).
  { apply Forall_app. split; [exact Oa1|apply Forall_firstn, So3]. }
  { apply Forall_app. split; [exact Oa2|apply Forall_firstn, B3]. }
  { exact Hn. }
  rewrite Er in X. unfold same_recovery in X.
  destruct (parseLog now o (file_of (lf_data (tm_file (ls_m s)))) ip) as [r'| |]; try contradiction.
  destruct X as (X1 & X2 & _). exists r'. split; [reflexivity|]. rewrite X1, X2. split; [intros H; apply R2, H|].
  intros H. destruct (R1 H) as (seg & _ & C & Fa & _). exists t, n. split.
  - replace seg with (header_of t peer m :: firstn n (asked evs)) in Fa; [exact Fa|]. symmetry.
    apply (session_from_mark o (es ++ pre') ti).
    + replace ((es ++ pre') ++ LDirInval ti :: header_of t peer m :: firstn n (asked evs))
        with (a ++ firstn n (asked evs)); [exact C|]. unfold a. rewrite <- !app_assoc. reflexivity.
    + apply Forall_firstn, asked_files.
  - intros N1 N2 N3. apply Wn. rewrite (Z N1 N2 N3). lia.
Qed.

(** ** Concrete sessions *)
Definition ex_opts : popts :=
  {| po_prealloc := true; po_dirTree := false; po_parseOnly := false; po_rid := [105]; po_config := 1;
     po_disk := fun name => if str_eqb name [97] then Some 10 else None |}.
Definition ex_log (data : list Z) : tlm :=
  {| tm_open := true; tm_file := {| lf_data := data; lf_pos := 0 |}; tm_rid := [105]; tm_ip := []; tm_config := 1;
     tm_entries := []; tm_status := OK; tm_headerWritten := false |}.
(** The manager after a recovery from [es]. *)
Definition ex_recover (es : list log_entry) : outcome (Z * list file_chunks * tlm) :=
  parseVerifyAndFix (fun _ => 9) 8 ex_opts (ex_log (log_bytes es)).
Definition ex_create : lev := LvAdd (AddCreation 12 [97] 4 10).
Definition ex_block (off : Z) : lev := LvAdd (AddBlock 13 4 off 5).
Definition ex_close : list lev := [LvShutdown; LvTake; LvWrite; LvJoin; LvClose].
Definition ex_evs : list lev :=
  [LvFileCmd; LvTake; LvInvalidate 10; LvWrite; LvHeader 11; LvNotify; ex_create; ex_block 0; LvTake; ex_block 5; LvWrite] ++ ex_close.
Definition ex_fail : list lev :=
  [LvFileCmd; LvInvalidate 10; LvHeader 11; LvNotify; ex_create; ex_block 0; LvTake; LvWriteFail 14; ex_block 5; LvShutdown; LvJoin; LvClose].
Definition ex_idle : list lev :=
  [LvFileCmd; LvInvalidate 10; LvHeader 11; LvNotify; ex_create; ex_block 0; ex_block 5; LvShutdown; LvClose].
Definition ex_early : list lev :=
  [LvFileCmd; LvInvalidate 10; ex_create; LvHeader 11; LvNotify; ex_block 0; ex_block 5] ++ ex_close.
Definition ex_other : log_entry := LHeader 6 2 [111] [58] 1.
Definition ex_peer : list Z := [58; 58].

Ltac small := vm_compute; repeat split; try discriminate; reflexivity.
Lemma ex_entries_ok : Forall entry_ok (asked ex_evs) /\ Forall block_in_range (asked ex_evs).
Proof. split; repeat constructor; vm_compute; try discriminate; repeat split; discriminate. Qed.
Lemma ex_times evs : (forall t, In (LvInvalidate t) evs \/ In (LvHeader t) evs -> t = 10 \/ t = 11) -> times_ok evs.
Proof. intros H t Ht. destruct (H t Ht) as [-> | ->]; split; vm_compute; congruence. Qed.
Ltac in_events := cbn; intros t H; repeat match goal with H : _ \/ _ |- _ => destruct H as [H|H] end; try discriminate H; try contradiction; injection H as <-; auto.
Lemma ex_ok m es evs : recovered m es -> tm_config m = 1 -> tm_rid m = [105] -> asked evs = asked ex_evs -> times_ok evs ->
  session_ok 7 ex_peer m es evs.
Proof.
  intros R C I A T. constructor; auto.
  - split; vm_compute; congruence.
  - rewrite C. split; vm_compute; congruence.
  - rewrite I. vm_compute. congruence.
  - rewrite A. apply ex_entries_ok.
Qed.
Lemma no_fail_b evs : existsb (fun e => match e with LvWriteFail _ => true | _ => false end) evs = false -> no_failure evs.
Proof.
  intros H k Hi. assert (X : existsb (fun e => match e with LvWriteFail _ => true | _ => false end) evs = true).
  { apply existsb_exists. exists (LvWriteFail k). split; [exact Hi|reflexivity]. }
  congruence.
Qed.

Lemma ex_session : exists m s, ex_recover [] = Ret (OK, [], m) /\
  session_ok 7 ex_peer m [] ex_evs /\ no_failure ex_evs /\ header_first ex_evs /\ begins_anew ex_evs /\
  session 7 false ex_peer m ex_evs = Some (Ret s) /\ tm_open (ls_m s) = false /\
  exists r, parseLog (fun _ => 9) ex_opts (file_of (lf_data (tm_file (ls_m s)))) [] = Ret r /\
    pr_status r = OK /\ map fc_chunks (pr_infos r) = [[{| iv_start := 0; iv_end := 10 |}]].
Proof.
  eexists. eexists. split; [vm_compute; reflexivity|].
  split. { apply ex_ok; try reflexivity; [constructor; split || idtac; reflexivity|apply ex_times; in_events]. }
  split; [apply no_fail_b; reflexivity|]. split; [exact I|]. split; [split; eexists; cbn; auto 20|].
  split; [vm_compute; reflexivity|]. split; [reflexivity|].
  eexists. split; [vm_compute; reflexivity|]. split; reflexivity.
Qed.
Lemma ex_failed : exists m s, ex_recover [] = Ret (OK, [], m) /\
  session_ok 7 ex_peer m [] ex_fail /\ header_first ex_fail /\ begins_anew ex_fail /\
  session 7 false ex_peer m ex_fail = Some (Ret s) /\ tm_open (ls_m s) = false /\
  exists r, parseLog (fun _ => 9) ex_opts (file_of (lf_data (tm_file (ls_m s)))) [] = Ret r /\
    pr_status r = OK /\ map fc_chunks (pr_infos r) = [[]].
Proof.
  eexists. eexists. split; [vm_compute; reflexivity|].
  split. { apply ex_ok; try reflexivity; [constructor; split || idtac; reflexivity|apply ex_times; in_events]. }
  split; [exact I|]. split; [split; eexists; cbn; auto 20|].
  split; [vm_compute; reflexivity|]. split; [reflexivity|].
  eexists. split; [vm_compute; reflexivity|]. split; reflexivity.
Qed.
(** The writer is not started when recovery found another session's log. *)
Lemma ex_not_started : exists m s, ex_recover [ex_other] = Ret (INCONSISTENT_DIRECTORY, [], m) /\
  session_ok 7 ex_peer m [ex_other; LDirInval 8] ex_idle /\ no_failure ex_idle /\ header_first ex_idle /\ begins_anew ex_idle /\
  session 7 false ex_peer m ex_idle = Some (Ret s) /\ tm_open (ls_m s) = false /\
  exists r, parseLog (fun _ => 9) ex_opts (file_of (lf_data (tm_file (ls_m s)))) [] = Ret r /\
    pr_status r = OK /\ pr_infos r = [] /\ asked ex_idle <> [].
Proof.
  eexists. eexists. split; [vm_compute; reflexivity|].
  split. { apply ex_ok; try reflexivity; [constructor; split || idtac; reflexivity|apply ex_times; in_events]. }
  split; [apply no_fail_b; reflexivity|]. split; [exact I|]. split; [split; eexists; cbn; auto 20|].
  split; [vm_compute; reflexivity|]. split; [reflexivity|].
  eexists. split; [vm_compute; reflexivity|]. split; [reflexivity|]. split; [reflexivity|discriminate].
Qed.
(** An entry is added while another thread is about to write the header. *)
Lemma ex_too_early : exists m s, ex_recover [] = Ret (OK, [], m) /\
  session_ok 7 ex_peer m [] ex_early /\ no_failure ex_early /\ begins_anew ex_early /\
  session 7 false ex_peer m ex_early = Some (Ret s) /\ tm_open (ls_m s) = false /\
  exists r, parseLog (fun _ => 9) ex_opts (file_of (lf_data (tm_file (ls_m s)))) [] = Ret r /\
    pr_status r = INVALID_LOG /\ pr_infos r = [].
Proof.
  eexists. eexists. split; [vm_compute; reflexivity|].
  split. { apply ex_ok; try reflexivity; [constructor; split || idtac; reflexivity|apply ex_times; in_events]. }
  split; [apply no_fail_b; reflexivity|]. split; [split; eexists; cbn; auto 20|].
  split; [vm_compute; reflexivity|]. split; [reflexivity|].
  eexists. split; [vm_compute; reflexivity|]. split; reflexivity.
Qed.
