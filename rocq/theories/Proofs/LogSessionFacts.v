(** The log during a session. *)
From Coq Require Import Lia.
From Verif Require Export Spec.LogSessionSpec Proofs.LogFacts.
Import ListNotations.
Open Scope Z_scope.

Lemma add_entry a m : entry_ok (entry_of a) -> tm_open m = true ->
  do_add a m = Ret (if tm_headerWritten m || is_inval (entry_of a)
                    then tm_with_entries m (tm_entries m ++ [entry_bytes (entry_of a)]) else m).
Proof.
  intros [Hf Hl] Ho.
  destruct (write_entry (entry_of a) Hf Hl) as (d & E & Es); [destruct a; intros; discriminate|].
  destruct a as [ts n q z|ts q o z|ts q z|ts q]; cbn [entry_of encode_of do_add is_inval orb] in *;
    unfold addFileCreationEntry, addBlockWriteEntry, addFileResizeEntry, addFileInvalidationEntry, emplace_entry;
    rewrite Ho; cbn [negb orb]; rewrite ?orb_false_r, ?orb_true_r; destruct (tm_headerWritten m); cbn [negb];
    try reflexivity; rewrite E; cbn [obind fst snd]; rewrite Es;
    match goal with |- context [?x <? 0] => destruct (Z.ltb_spec x 0) as [L|L]; [pose proof (zlen_nonneg (entry_bytes (entry_of (AddCreation 0 [] 0 0)))); exfalso; revert L; apply Z.le_ngt, zlen_nonneg|] end;
    reflexivity.
Qed.
Lemma add_header ts m es : in_nat63 ts -> in_nat63 (tm_config m) -> zlen (tm_rid m) + zlen (tm_ip m) <= 4103 ->
  tm_open m = true ->
  exists m', writeLogHeader ts m = Ret m' /\ (holds (tm_file m) es -> holds (tm_file m') (es ++ [header_of ts (tm_ip m) m])) /\
    tm_status m' = OK /\ tm_open m' = true /\ tm_headerWritten m' = true /\ tm_entries m' = tm_entries m /\
    tm_rid m' = tm_rid m /\ tm_ip m' = tm_ip m /\ tm_config m' = tm_config m.
Proof.
  intros Ht Hc Hl Ho. unfold writeLogHeader. rewrite Ho. cbn [negb].
  assert (F : entry_fields_ok (header_of ts (tm_ip m) m)).
  { pose proof (zlen_nonneg (tm_rid m)). pose proof (zlen_nonneg (tm_ip m)).
    cbn. split; [exact Ht|]. split; [split; vm_compute; [discriminate|reflexivity]|]. split; [exact Hc|].
    change (2 ^ 63) with 9223372036854775808. lia. }
  destruct (write_entry (header_of ts (tm_ip m) m)) as (d & E & Es).
  - exact F.
  - apply entry_fits; [exact F|]. cbn. auto.
  - intros ? ? ? ? ? [= _ <- _ _ _]. reflexivity.
  - cbn [encode_of header_of] in E. rewrite E. cbn [obind fst snd].
    match goal with |- context [?x <? 0] => destruct (Z.ltb_spec x 0) as [L|L]; [exfalso; revert L; apply Z.le_ngt, zlen_nonneg|] end.
    rewrite Es. eexists. split; [reflexivity|].
    cbn [tm_file tm_status tm_open tm_headerWritten tm_entries tm_rid tm_ip tm_config]. split; [|repeat split; reflexivity].
    intros [H1 H2]. destruct (tm_file m) as [fd fp]. cbn [lf_data lf_pos] in H1, H2. subst fd fp.
    rewrite fwrite_end. unfold holds. cbn [lf_data lf_pos]. rewrite log_bytes_app. cbn [log_bytes flat_map].
    rewrite app_nil_r. split; reflexivity.
Qed.
Lemma add_dir_inval ts m es : in_nat63 ts -> tm_open m = true ->
  exists m', invalidateDirectory ts m = Ret m' /\ (holds (tm_file m) es -> holds (tm_file m') (es ++ [LDirInval ts])) /\
    tm_open m' = true /\ tm_headerWritten m' = tm_headerWritten m /\ tm_entries m' = tm_entries m /\
    tm_rid m' = tm_rid m /\ tm_ip m' = tm_ip m /\ tm_config m' = tm_config m.
Proof.
  intros Ht Ho. unfold invalidateDirectory. rewrite Ho. cbn [negb].
  destruct (write_entry (LDirInval ts)) as (d & E & Es);
    [exact Ht|apply entry_fits; auto; exact Ht|intros; discriminate|].
  cbn [encode_of] in E. rewrite E. cbn [obind fst snd]. rewrite Es. eexists. split; [reflexivity|].
  cbn [tm_file tm_open tm_headerWritten tm_entries tm_rid tm_ip tm_config]. split; [|repeat split; reflexivity].
  intros [H1 H2]. destruct (tm_file m) as [fd fp]. cbn [lf_data lf_pos] in H1, H2. subst fd fp.
  rewrite fwrite_end. unfold holds. cbn [lf_data lf_pos]. rewrite log_bytes_app. cbn [log_bytes flat_map].
  rewrite app_nil_r. split; reflexivity.
Qed.
Lemma concat_entries l : concat (map entry_bytes l) = log_bytes l.
Proof. induction l as [|e l IH]; [reflexivity|]. cbn [map concat log_bytes flat_map]. rewrite IH. reflexivity. Qed.
Lemma write_holds f es l : holds f es -> holds (fwrite f (log_bytes l)) (es ++ l).
Proof.
  intros [H1 H2]. destruct f as [d p]. cbn [lf_data lf_pos] in *. subst d p. rewrite fwrite_end.
  unfold holds. cbn [lf_data lf_pos]. rewrite log_bytes_app. split; reflexivity.
Qed.

Section Session.
(** The session's constants: what the file held at its start, what goes into headers. *)
Context (es : list log_entry) (rid peer : list Z) (config : Z) (started : bool).
Context (Hconf : in_nat63 config) (Hfit : zlen rid + zlen peer <= 4103).
Definition hdr_entry (ts : Z) : log_entry := LHeader ts 2 rid peer config.

Definition past_header (f : lfunnel) : bool := match f with FuNotify | FuEnd => true | _ => false end.
Record frame_ok (hdr : bool) (s : lses) : Prop := {
  k_rid : tm_rid (ls_m s) = rid;
  k_ip : tm_ip (ls_m s) = peer;
  k_config : tm_config (ls_m s) = config;
  k_hdr : tm_headerWritten (ls_m s) = hdr;
  k_funnel : past_header (ls_funnel s) = hdr;
  k_open : ls_closing s = false -> tm_open (ls_m s) = true;
  k_finished : ls_finished s = true -> ls_closing s = true;
  k_closed : tm_open (ls_m s) = false -> ls_writer s = WNone
}.
(** What is where: on disk, with the writer, in memory. *)
Record placed (acc disk batch mem : list log_entry) (s : lses) : Prop := {
  p_file : holds (tm_file (ls_m s)) (es ++ disk);
  p_batch : ls_batch s = map entry_bytes batch;
  p_mem : tm_entries (ls_m s) = map entry_bytes mem;
  p_acc : filter about_file disk ++ batch ++ mem = acc;
  p_writing : ls_writer s <> WWriting -> batch = [];
  p_files : Forall (fun e => about_file e = true) (batch ++ mem);
  p_last : ls_last s = true -> mem = [] /\ ls_closing s = true;
  p_ended : ls_writer s = WEnded -> ls_last s = true;
  p_none : started = true -> ls_writer s = WNone -> ls_last s = true
}.
Definition reliable (e : lev) : Prop := match e with LvWriteFail _ => False | _ => True end.
Definition ev_ok (e : lev) : Prop :=
  match e with LvAdd a => entry_ok (entry_of a) | LvInvalidate ts => in_nat63 ts | LvHeader ts => in_nat63 ts | _ => True end.
Definition hdr_after (hdr : bool) (e : lev) : bool := match e with LvHeader _ => true | _ => hdr end.
Definition direct (e : lev) : list log_entry :=
  match e with LvInvalidate ts => [LDirInval ts] | LvHeader ts => [hdr_entry ts] | _ => [] end.
Lemma entry_about a : about_file (entry_of a) = true. Proof. destruct a; reflexivity. Qed.

Ltac fin := cbn; try match goal with H : ls_closing _ = _ |- _ => rewrite ?H end;
  try match goal with H : ls_funnel _ = _ |- _ => rewrite ?H end;
  try match goal with H : ls_writer _ = _ |- _ => rewrite ?H end; auto; try discriminate; try congruence;
  try match goal with K : tm_open (ls_m ?s) = false -> _ |- tm_open (ls_m ?s) = false -> _ => let X := fresh in intros X; specialize (K X); congruence end.
Lemma step_ok hdr acc disk batch mem s e : frame_ok hdr s -> placed acc disk batch mem s -> ev_ok e -> reliable e ->
  match ls_step s e with
  | None => True
  | Some (Ret s') =>
      frame_ok (hdr_after hdr e) s' /\
      exists batch' mem', placed (acc ++ taken hdr [e]) (disk ++ direct e ++ match e with LvWrite => batch | _ => [] end) batch' mem' s'
  | Some _ => False
  end.
Proof.
  intros K P He Hr. pose proof K as [K1 K2 K3 K4 K5 K6 K7 K8]. pose proof P as [P1 P2 P3 P4 P5 P6 P7 P8 P9].
  destruct e as [| | | |ts|ts| |a| | |k| | |]; cbn [ls_step hdr_after direct taken app]; cbn [reliable] in Hr; try contradiction.
  - destruct (ls_funnel s) eqn:Ef; try exact I. destruct (ls_closing s) eqn:Ec; [exact I|].
    split; [constructor; fin|]. exists batch, mem. rewrite !app_nil_r.
    constructor; fin.
  - destruct (ls_funnel s) eqn:Ef; try exact I. destruct (ls_closing s) eqn:Ec; [exact I|].
    split; [constructor; fin|]. exists batch, mem. rewrite !app_nil_r.
    constructor; fin.
  - destruct (ls_funnel s) eqn:Ef; try exact I. destruct (ls_closing s) eqn:Ec; [exact I|].
    split; [constructor; fin|]. exists batch, mem. rewrite !app_nil_r.
    constructor; fin.
  - destruct (ls_funnel s) eqn:Ef; try exact I. destruct (ls_closing s) eqn:Ec; [exact I|].
    split; [constructor; fin|]. exists batch, mem. rewrite !app_nil_r.
    constructor; fin.
  - destruct (ls_funnel s) eqn:Ef; try exact I. destruct (ls_closing s) eqn:Ec; [exact I|].
    destruct (add_dir_inval ts (ls_m s) (es ++ disk) He (K6 eq_refl)) as (m' & E & A1 & A2 & A3 & A4 & A5 & A6 & A7).
    unfold olift. rewrite E. cbn [obind].
    split; [constructor; cbn; rewrite ?A2, ?A3, ?A5, ?A6, ?A7; fin|]. exists batch, mem. rewrite !app_nil_r.
    constructor; cbn; rewrite ?A4; fin.
    + rewrite app_assoc. exact (A1 P1).
    + rewrite filter_app. cbn. rewrite app_nil_r. exact P4.
  - destruct (ls_funnel s) eqn:Ef; try exact I. destruct (ls_closing s) eqn:Ec; [exact I|].
    destruct (add_header ts (ls_m s) (es ++ disk)) as (m' & E & A1 & A2 & A3 & A4 & A5 & A6 & A7 & A8);
      [exact He|rewrite K3; exact Hconf|rewrite K1, K2; exact Hfit|auto|].
    unfold olift. rewrite E. cbn [obind].
    split; [constructor; cbn; rewrite ?A3, ?A4, ?A6, ?A7, ?A8; fin|]. exists batch, mem. rewrite !app_nil_r.
    constructor; cbn; rewrite ?A5; fin.
    + rewrite app_assoc. unfold header_of in A1. rewrite K1, K2, K3 in A1. exact (A1 P1).
    + rewrite filter_app. cbn. rewrite app_nil_r. exact P4.
  - destruct (ls_funnel s) eqn:Ef; try exact I. destruct (ls_closing s) eqn:Ec; [exact I|].
    split; [constructor; fin|]. exists batch, mem. rewrite !app_nil_r.
    constructor; fin.
  - destruct (ls_closing s) eqn:Ec; [destruct (ls_funnel s); exact I|].
    assert (E : do_add a (ls_m s) = _) by (apply add_entry; [exact He|auto]). rewrite K4 in E.
    match goal with |- match ?x with _ => _ end => replace x with (olift (fun m' => ls_with_m s m' (ls_funnel s)) (do_add a (ls_m s))) by (destruct (ls_funnel s); reflexivity) end.
    unfold olift. rewrite E. cbn [obind]. rewrite !app_nil_r.
    destruct (hdr || is_inval (entry_of a)).
    + split; [constructor; fin|]. exists batch, (mem ++ [entry_of a]).
      constructor; fin.
      * rewrite P3, map_app. reflexivity.
      * rewrite <- P4, <- !app_assoc. reflexivity.
      * rewrite app_assoc. apply Forall_app. split; [exact P6|]. constructor; [apply entry_about|constructor].
      * intros H. apply P7 in H. destruct H as [_ H]. discriminate H.
    + rewrite app_nil_r. split; [constructor; fin|]. exists batch, mem.
      constructor; fin.
  - match goal with |- match ?x with _ => _ end => replace x with (match ls_writer s with
      | WWaiting => Some (Ret (ls_writes s (tm_with_entries (ls_m s) []) WWriting (tm_entries (ls_m s)) (ls_finished s)))
      | _ => None end) by (destruct (ls_funnel s), (ls_closing s); reflexivity) end.
    destruct (ls_writer s) eqn:Ew; try exact I. rewrite !app_nil_r.
    split; [constructor; fin|]. exists mem, [].
    assert (B : batch = []) by (apply P5; discriminate). subst batch.
    constructor; fin.
    + rewrite app_nil_r. exact P4.
    + rewrite app_nil_r. exact P6.
  - match goal with |- match ?x with _ => _ end => replace x with (match ls_writer s with
      | WWriting => Some (Ret (ls_writes s (tm_with_file (ls_m s) (fwrite (tm_file (ls_m s)) (concat (ls_batch s))))
                                 (if ls_last s then WEnded else WWaiting) [] (ls_last s)))
      | _ => None end) by (destruct (ls_funnel s), (ls_closing s); reflexivity) end.
    destruct (ls_writer s) eqn:Ew; try exact I. rewrite app_nil_r.
    split; [constructor; fin|]. exists [], mem.
    apply Forall_app in P6. destruct P6 as [P6 P6'].
    constructor; fin.
    + rewrite P2, concat_entries, app_assoc. apply write_holds, P1.
    + rewrite filter_app, <- app_assoc, <- P4. f_equal. f_equal.
      clear -P6. induction batch as [|x l IH]; [reflexivity|]. cbn [filter]. inversion P6; subst. rewrite H1, IH; auto.
    + intros H. destruct (ls_last s); [reflexivity|discriminate H].
    + intros _ H. destruct (ls_last s); discriminate H.
  - destruct (ls_closing s) eqn:Ec; [destruct (ls_funnel s); exact I|].
    rewrite !app_nil_r. split; [constructor; fin|]. exists batch, mem.
    constructor; fin. intros H. apply P7 in H. tauto.
  - destruct (ls_closing s) eqn:Ec; [|destruct (ls_funnel s); exact I].
    destruct (ls_writer s) eqn:Ew; try exact I. rewrite !app_nil_r.
    split; [constructor; fin|]. exists batch, mem.
    constructor; fin. intros _. apply P5. discriminate.
  - destruct (ls_closing s) eqn:Ec; [|destruct (ls_funnel s); exact I].
    destruct (ls_writer s) eqn:Ew; try exact I. destruct (tm_open (ls_m s)) eqn:Eo; [|exact I]. rewrite !app_nil_r.
    split; [constructor; fin|]. exists batch, mem.
    constructor; fin.
Qed.

(** The frame is kept by every event. *)
Lemma frame_step hdr s e : frame_ok hdr s -> ev_ok e ->
  match ls_step s e with
  | None => True
  | Some (Ret s') => frame_ok (hdr_after hdr e) s'
  | Some _ => False
  end.
Proof.
  intros K He. pose proof K as [K1 K2 K3 K4 K5 K6 K7 K8].
  destruct e as [| | | |ts|ts| |a| | |k| | |]; cbn [ls_step hdr_after].
  1-4: destruct (ls_funnel s) eqn:Ef; try exact I; destruct (ls_closing s) eqn:Ec; [exact I|]; constructor; fin.
  - destruct (ls_funnel s) eqn:Ef; try exact I. destruct (ls_closing s) eqn:Ec; [exact I|].
    destruct (add_dir_inval ts (ls_m s) [] He (K6 eq_refl)) as (m' & E & A1 & A2 & A3 & A4 & A5 & A6 & A7).
    unfold olift. rewrite E. cbn [obind]. constructor; cbn; rewrite ?A2, ?A3, ?A5, ?A6, ?A7; fin.
  - destruct (ls_funnel s) eqn:Ef; try exact I. destruct (ls_closing s) eqn:Ec; [exact I|].
    destruct (add_header ts (ls_m s) []) as (m' & E & A1 & A2 & A3 & A4 & A5 & A6 & A7 & A8);
      [exact He|rewrite K3; exact Hconf|rewrite K1, K2; exact Hfit|auto|].
    unfold olift. rewrite E. cbn [obind]. constructor; cbn; rewrite ?A3, ?A4, ?A6, ?A7, ?A8; fin.
  - destruct (ls_funnel s) eqn:Ef; try exact I. destruct (ls_closing s) eqn:Ec; [exact I|]. constructor; fin.
  - destruct (ls_closing s) eqn:Ec; [destruct (ls_funnel s); exact I|].
    assert (E : do_add a (ls_m s) = _) by (apply add_entry; [exact He|auto]).
    match goal with |- match ?x with _ => _ end => replace x with (olift (fun m' => ls_with_m s m' (ls_funnel s)) (do_add a (ls_m s))) by (destruct (ls_funnel s); reflexivity) end.
    unfold olift. rewrite E. cbn [obind].
    destruct (tm_headerWritten (ls_m s) || is_inval (entry_of a)); constructor; fin.
  - destruct (ls_funnel s) eqn:Ef, (ls_closing s) eqn:Ec, (ls_writer s) eqn:Ew; try exact I; constructor; fin.
  - destruct (ls_funnel s) eqn:Ef, (ls_closing s) eqn:Ec, (ls_writer s) eqn:Ew; try exact I; constructor; fin.
  - destruct (ls_funnel s) eqn:Ef, (ls_closing s) eqn:Ec, (ls_writer s) eqn:Ew; try exact I;
      destruct (k <? length (concat (ls_batch s)))%nat; try exact I; constructor; fin.
  - destruct (ls_closing s) eqn:Ec; [destruct (ls_funnel s); exact I|]. constructor; fin.
  - destruct (ls_closing s) eqn:Ec; [|destruct (ls_funnel s); exact I].
    destruct (ls_writer s) eqn:Ew; try exact I. constructor; fin.
  - destruct (ls_closing s) eqn:Ec; [|destruct (ls_funnel s); exact I].
    destruct (ls_writer s) eqn:Ew; try exact I. destruct (tm_open (ls_m s)); [|exact I]. constructor; fin.
Qed.
Lemma frame_run evs : forall hdr s, frame_ok hdr s -> Forall ev_ok evs ->
  match ls_run evs s with None => True | Some (Ret _) => True | Some _ => False end.
Proof.
  induction evs as [|e evs IH]; intros hdr s K He; [exact I|]. cbn [ls_run]. inversion He as [|? ? E1 E2]; subst.
  pose proof (frame_step hdr s e K E1) as S. destruct (ls_step s e) as [[s'| |]|]; auto. exact (IH _ _ S E2).
Qed.

(** Runs in which no write fails. *)
Fixpoint hdr_end (hdr : bool) (evs : list lev) : bool :=
  match evs with [] => hdr | e :: r => hdr_end (hdr_after hdr e) r end.
Lemma taken_cons hdr e evs : taken hdr (e :: evs) = taken hdr [e] ++ taken (hdr_after hdr e) evs.
Proof. destruct e; cbn; rewrite ?app_nil_r; reflexivity. Qed.
Lemma run_ok evs : forall hdr acc disk batch mem s, frame_ok hdr s -> placed acc disk batch mem s ->
  Forall ev_ok evs -> Forall reliable evs ->
  match ls_run evs s with
  | None => True
  | Some (Ret s') => frame_ok (hdr_end hdr evs) s' /\
      exists disk' batch' mem', placed (acc ++ taken hdr evs) disk' batch' mem' s'
  | Some _ => False
  end.
Proof.
  induction evs as [|e evs IH]; intros hdr acc disk batch mem s K P He Hr.
  - cbn. rewrite app_nil_r. split; [exact K|]. eauto.
  - inversion He as [|? ? E1 E2]; subst. inversion Hr as [|? ? R1 R2]; subst. rewrite taken_cons. cbn [ls_run hdr_end].
    pose proof (step_ok hdr acc disk batch mem s e K P E1 R1) as S.
    destruct (ls_step s e) as [[s'| |]|]; try exact S. destruct S as (K' & b & m & P').
    rewrite app_assoc. exact (IH _ _ _ _ _ _ K' P' E2 R2).
Qed.

(** The order of what is on disk when nothing was added before the header. *)
Definition marks (l : list log_entry) : Prop := Forall (fun e => exists t, e = LDirInval t /\ in_nat63 t) l.
Definition ends_marked (l : list log_entry) : Prop := exists l' t, l = l' ++ [LDirInval t].
Definition laid_out (inv hdr : bool) (acc disk : list log_entry) (f : lfunnel) : Prop :=
  if hdr then exists pre ts rest, disk = pre ++ hdr_entry ts :: rest /\ in_nat63 ts /\ marks pre /\
                Forall (fun e => about_file e = true) rest /\ (inv = true -> ends_marked pre)
  else acc = [] /\ marks disk /\ (inv = true -> f = FuHeader /\ ends_marked disk).
(** After a write that failed: a part of the log, header included. *)
Definition cut_short (inv : bool) (acc : list log_entry) (s : lses) : Prop :=
  ls_writer s <> WWaiting /\ ls_writer s <> WWriting /\
  exists pre ts k, in_nat63 ts /\ marks pre /\ (inv = true -> ends_marked pre) /\
    lf_data (tm_file (ls_m s)) = firstn k (log_bytes (es ++ pre ++ hdr_entry ts :: acc)) /\
    (length (log_bytes (es ++ pre ++ [hdr_entry ts])) <= k <= length (log_bytes (es ++ pre ++ hdr_entry ts :: acc)))%nat.
Definition inv_after (inv : bool) (e : lev) : bool := match e with LvInvalidate _ => true | _ => inv end.
(** Adding comes after the header. *)
Definition ordered (hdr : bool) (e : lev) : Prop := match e with LvAdd _ => hdr = true | _ => True end.
Definition fail_after (fl : bool) (e : lev) : bool := match e with LvWriteFail _ => true | _ => fl end.
Definition good (fl inv hdr : bool) (acc : list log_entry) (s : lses) : Prop :=
  frame_ok hdr s /\
  ((exists disk batch mem, placed acc disk batch mem s /\ laid_out inv hdr acc disk (ls_funnel s)) \/
   (fl = true /\ hdr = true /\ cut_short inv acc s)).

Lemma log_bytes_len_app a b : length (log_bytes (a ++ b)) = (length (log_bytes a) + length (log_bytes b))%nat.
Proof. rewrite log_bytes_app, app_length. reflexivity. Qed.
Lemma filter_all (l : list log_entry) : Forall (fun e => about_file e = true) l -> filter about_file l = l.
Proof. induction 1 as [|x l H _ IH]; [reflexivity|]. cbn [filter]. rewrite H, IH. reflexivity. Qed.
Lemma filter_marks l : marks l -> filter about_file l = [].
Proof. induction 1 as [|x l (t & -> & _) _ IH]; [reflexivity|exact IH]. Qed.

Lemma good_step fl inv hdr acc s e : good fl inv hdr acc s -> ev_ok e -> ordered hdr e ->
  match ls_step s e with
  | None => True
  | Some (Ret s') => good (fail_after fl e) (inv_after inv e) (hdr_after hdr e) (acc ++ taken hdr [e]) s'
  | Some _ => False
  end.
Proof.
  intros [K [(disk & batch & mem & P & L)|(-> & -> & C)]] He Ho.
  - assert (D : reliable e \/ exists k, e = LvWriteFail k) by (destruct e; cbn; eauto).
    destruct D as [Hr|[k ->]].
    + pose proof (step_ok hdr acc disk batch mem s e K P He Hr) as S.
      destruct (ls_step s e) as [[s'| |]|] eqn:Es; try exact S. destruct S as (K' & b & m & P').
      split; [exact K'|]. left. eexists _, b, m. split; [exact P'|].
      destruct hdr.
      * assert (T : inv_after inv e = inv /\ hdr_after true e = true /\ direct e = []).
        { destruct K as [_ _ _ _ K _ _ _]. destruct e; auto; exfalso; cbn [ls_step] in Es;
            destruct (ls_funnel s); discriminate. }
        destruct T as (-> & -> & ->). cbn [laid_out app] in *.
        destruct L as (pre & t & rest & -> & L0 & L1 & L2 & L3).
        exists pre, t. exists (rest ++ match e with LvWrite => batch | _ => [] end). split; [|split; [exact L0|split; [exact L1|split; [|exact L3]]]].
        -- rewrite <- app_assoc. reflexivity.
        -- apply Forall_app. split; [exact L2|]. destruct P as [_ _ _ _ _ P6 _ _ _].
           apply Forall_app in P6. destruct e; solve [constructor|apply P6].
      * cbn [laid_out] in L. destruct L as (-> & L1 & L2).
        assert (B : batch = [] /\ mem = []).
        { pose proof (p_acc _ _ _ _ _ P) as A. apply app_eq_nil in A. apply app_eq_nil, A. }
        destruct B as [-> ->].
        destruct e; cbn [hdr_after inv_after direct laid_out app taken]; rewrite ?app_nil_r;
          try (split; [reflexivity|]; split; [exact L1|]; intros Hi; destruct (L2 Hi) as [L3 L4]; split; [|exact L4]);
          cbn [ls_step] in Es; rewrite ?L3 in Es; try discriminate Es.
        -- destruct (ls_funnel s); try discriminate Es. destruct (ls_closing s); try discriminate Es.
           unfold olift in Es. destruct (invalidateDirectory ts (ls_m s)) as [m1| |]; try discriminate Es.
           cbn in Es. injection Es as <-. split; [reflexivity|].
           split; [apply Forall_app; split; [exact L1|constructor; [eauto|constructor]]|].
           intros _. split; [reflexivity|]. exists disk, ts. reflexivity.
        -- exists disk, ts, []. split; [reflexivity|]. split; [exact He|]. split; [exact L1|]. split; [constructor|].
           intros Hi. apply L2, Hi.
        -- cbn [ordered] in Ho. discriminate Ho.
        -- destruct (ls_closing s); destruct (ls_writer s); try discriminate Es; injection Es as <-; reflexivity || exact L3.
        -- destruct (ls_closing s); destruct (ls_writer s); try discriminate Es; injection Es as <-; reflexivity || exact L3.
        -- contradiction.
        -- destruct (ls_closing s); try discriminate Es; injection Es as <-; reflexivity || exact L3.
        -- destruct (ls_closing s); destruct (ls_writer s); try discriminate Es; injection Es as <-; reflexivity || exact L3.
        -- destruct (ls_closing s); destruct (ls_writer s); destruct (tm_open (ls_m s)); try discriminate Es; injection Es as <-; reflexivity || exact L3.
    + cbn [ls_step]. destruct (ls_writer s) eqn:Ew; try (destruct (ls_funnel s), (ls_closing s); exact I).
      match goal with |- match ?x with _ => _ end => replace x with
        (if (k <? length (concat (ls_batch s)))%nat
          then Some (Ret (ls_writes s (tm_with_file (ls_m s) (fwrite (tm_file (ls_m s)) (firstn k (concat (ls_batch s)))))
                            WEnded [] (ls_last s)))
          else None) by (destruct (ls_funnel s), (ls_closing s); reflexivity) end.
      destruct (Nat.ltb_spec k (length (concat (ls_batch s)))) as [Hk|]; [|exact I].
      destruct P as [P1 P2 P3 P4 P5 P6 P7 P8 P9]. rewrite P2, concat_entries in *.
      cbn [inv_after hdr_after fail_after taken]. rewrite app_nil_r.
      destruct hdr.
      2:{ cbn [laid_out] in L. destruct L as (-> & _). apply app_eq_nil in P4. destruct P4 as [_ P4].
          apply app_eq_nil in P4. destruct P4 as [-> _]. cbn in Hk. lia. }
      split; [destruct K as [K1 K2 K3 K4 K5 K6 K7 K8]; constructor; fin|].
      right. split; [reflexivity|]. split; [reflexivity|]. cbn [laid_out] in L. destruct L as (pre & t & rest & -> & L0 & L1 & L2 & L3).
      split; [cbn; discriminate|]. split; [cbn; discriminate|].
      exists pre, t. rewrite filter_app in P4. cbn [filter about_file hdr_entry] in P4.
      rewrite (filter_marks _ L1), (filter_all _ L2) in P4. cbn [app] in P4. subst acc.
      exists (length (log_bytes (es ++ pre ++ hdr_entry t :: rest)) + k)%nat.
      split; [exact L0|]. split; [exact L1|]. split; [exact L3|].
      assert (E : log_bytes (es ++ pre ++ hdr_entry t :: rest ++ batch ++ mem) =
                  log_bytes (es ++ pre ++ hdr_entry t :: rest) ++ log_bytes batch ++ log_bytes mem).
      { rewrite <- !log_bytes_app. f_equal. rewrite <- !app_assoc. reflexivity. }
      rewrite E. split.
      * cbn [ls_m ls_writes tm_file tm_with_file]. destruct P1 as [D1 D2]. destruct (tm_file (ls_m s)) as [fd fp].
        cbn [lf_data lf_pos] in D1, D2. subst fd fp. rewrite fwrite_end. cbn [lf_data].
        rewrite firstn_app_2. f_equal. rewrite firstn_app.
        replace (k - length (log_bytes batch))%nat with 0%nat by lia. rewrite app_nil_r. reflexivity.
      * rewrite !app_length. split; [|lia].
        change (hdr_entry t :: rest) with ([hdr_entry t] ++ rest). rewrite !app_assoc, (log_bytes_len_app (_ ++ [_]) rest). lia.
  - destruct C as (C1 & C2 & pre & t & k & C0 & C3 & C4 & C5 & C6).
    assert (X : forall s' l, frame_ok true s' -> tm_file (ls_m s') = tm_file (ls_m s) ->
              ls_writer s' = ls_writer s \/ ls_writer s' = WNone -> good true inv true (acc ++ l) s').
    { intros s' l K' Ef Ew. split; [exact K'|]. right. split; [reflexivity|]. split; [reflexivity|].
      split; [destruct Ew as [->| ->]; [exact C1|discriminate]|].
      split; [destruct Ew as [->| ->]; [exact C2|discriminate]|].
      exists pre, t, k. split; [exact C0|]. split; [exact C3|]. split; [exact C4|]. rewrite Ef, C5.
      assert (E : log_bytes (es ++ pre ++ hdr_entry t :: acc ++ l) = log_bytes (es ++ pre ++ hdr_entry t :: acc) ++ log_bytes l).
      { rewrite <- !log_bytes_app. f_equal. rewrite <- !app_assoc. reflexivity. }
      rewrite E, app_length. split; [|lia]. rewrite firstn_app.
      replace (k - _)%nat with 0%nat by lia. rewrite firstn_O, app_nil_r. reflexivity. }
    pose proof K as [K1 K2 K3 K4 K5 K6 K7 K8].
    destruct e as [| | | |ts|ts| |a| | |j| | |]; cbn [ls_step hdr_after inv_after fail_after taken];
      try (destruct (ls_funnel s) eqn:Ef; try exact I; discriminate K5).
    + destruct (ls_funnel s) eqn:Ef; try exact I. destruct (ls_closing s) eqn:Ec; [exact I|].
      apply X; [constructor; fin|reflexivity|left; reflexivity].
    + destruct (ls_closing s) eqn:Ec; [destruct (ls_funnel s); exact I|].
      assert (E : do_add a (ls_m s) = _) by (apply add_entry; [exact He|auto]). rewrite K4 in E.
      match goal with |- match ?x with _ => _ end => replace x with (olift (fun m' => ls_with_m s m' (ls_funnel s)) (do_add a (ls_m s))) by (destruct (ls_funnel s); reflexivity) end.
      unfold olift. rewrite E. cbn [obind orb].
      apply X; [constructor; fin|reflexivity|left; reflexivity].
    + destruct (ls_writer s) eqn:Ew; try (destruct (ls_funnel s), (ls_closing s); exact I). congruence.
    + destruct (ls_writer s) eqn:Ew; try (destruct (ls_funnel s), (ls_closing s); exact I). congruence.
    + destruct (ls_writer s) eqn:Ew; try (destruct (ls_funnel s), (ls_closing s); exact I). congruence.
    + destruct (ls_closing s) eqn:Ec; [destruct (ls_funnel s); exact I|].
      apply X; [constructor; fin|reflexivity|left; reflexivity].
    + destruct (ls_closing s) eqn:Ec; [|destruct (ls_funnel s); exact I].
      destruct (ls_writer s) eqn:Ew; try exact I.
      apply X; [constructor; fin|reflexivity|right; reflexivity].
    + destruct (ls_closing s) eqn:Ec; [|destruct (ls_funnel s); exact I].
      destruct (ls_writer s) eqn:Ew; try exact I. destruct (tm_open (ls_m s)) eqn:Eo; [|exact I].
      apply X; [constructor; fin|reflexivity|left; exact Ew].
Qed.
End Session.
