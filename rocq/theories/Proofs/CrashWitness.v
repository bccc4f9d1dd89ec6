(** Concrete sessions for C52. *)
From Verif Require Export Proofs.CrashFacts.
From Coq Require Import Lia.

(** Checked execution. *)
Definition nat63b (x : Z) : bool := (0 <=? x) && (x <? 2 ^ 63).
Definition care_b (c : ccfg) (n : nat) (bs : list block_details) (l : clabel) (s : cstate) : option clabel :=
  if nat63b (entry_time l) then
    match l with
    | CWrite i d =>
        match nth_error (cs_thr s) i with
        | Some t => match ct_op t with
                    | OWrite b k _ => if right_bytes (c_src c (bd_fileName b)) (bd_offset b + k) d
                                      then Some l else None
                    | _ => None end
        | None => None end
    | _ => Some l
    end
  else None.
(** Steps given by thread, block and so on; headers name a block of [bs] by
    its number. *)
Inductive wstep := WHead (i k : nat) | WL (l : clabel).
Definition label_of (bs : list block_details) (w : wstep) : option clabel :=
  match w with
  | WHead i k => match nth_error bs k with Some b => Some (CHeader i b) | None => None end
  | WL (CHeader _ _) => None
  | WL l => Some l
  end.
Fixpoint wrun (check : bool) (c : ccfg) (bs : list block_details) (ws : list wstep) (s : cstate)
  : option cstate :=
  match ws with
  | [] => Some s
  | w :: r =>
      match label_of bs w with
      | None => None
      | Some l =>
          match (if check then care_b c 0 bs l s
                 else if nat63b (entry_time l) then Some l else None) with
          | None => None
          | Some l' => match cstep c l' s with Some s' => wrun check c bs r s' | None => None end
          end
      end
  end.

Lemma nat63b_ok x : nat63b x = true -> in_nat63 x.
Proof. unfold nat63b, in_nat63; intros H; apply andb_true_iff in H; lia. Qed.
Lemma label_head bs w i b : label_of bs w = Some (CHeader i b) -> In b bs.
Proof.
  destruct w as [j k|l]; cbn.
  - destruct (nth_error bs k) eqn:E; [|discriminate]. intros H; injection H as -> ->.
    eapply nth_error_In; eauto.
  - destruct l; intros H; try discriminate; injection H; intros; discriminate.
Qed.
Lemma care_ok c p infos n bs l s l' : care_b c n bs l s = Some l' ->
  (forall i b, l = CHeader i b -> planned p b) -> l' = l /\ careful c p infos l s.
Proof.
  unfold care_b. destruct (nat63b _) eqn:Hn; [|discriminate]. apply nat63b_ok in Hn.
  intros E Hp. unfold careful. destruct l; try (injection E as <-; split; [reflexivity|split; [exact Hn|]];
    try exact Logic.I; try (eapply Hp; reflexivity)).
  destruct (nth_error (cs_thr s) i) as [t|] eqn:Ht; [|discriminate].
  destruct (ct_op t) as [| | | | | |b k ok] eqn:Ho; try discriminate.
  destruct (right_bytes _ _ _) eqn:Hr; [|discriminate]. injection E as <-.
  split; [reflexivity|]; split; [exact Hn|]. intros t' b' n' r' Ht' Ho'.
  replace t' with t in * by congruence. rewrite Ho in Ho'; injection Ho' as <- <- <-. left; exact Hr.
Qed.
Lemma wrun_careful c p infos bs ws : (forall b, In b bs -> planned p b) ->
  forall s s1 s', careful_run c p infos s1 s -> wrun true c bs ws s = Some s' -> careful_run c p infos s1 s'.
Proof.
  intros Hb. induction ws as [|w ws IH]; cbn [wrun]; intros s s1 s' R E; [injection E as <-; exact R|].
  destruct (label_of bs w) as [l|] eqn:Hl; [|discriminate].
  destruct (care_b c 0 bs l s) as [l'|] eqn:Hc; [|discriminate].
  destruct (cstep c l' s) as [s2|] eqn:Hs; [|discriminate].
  destruct (care_ok c p infos _ _ _ _ _ Hc) as [-> C].
  { intros i b ->. apply Hb. eapply label_head; eauto. }
  apply (IH s2); [|exact E]. eapply CRS; eauto.
Qed.
Lemma wrun_planned c p bs ws : (forall b, In b bs -> planned p b) ->
  forall s s1 s', planned_run c p s1 s -> wrun false c bs ws s = Some s' -> planned_run c p s1 s'.
Proof.
  intros Hb. induction ws as [|w ws IH]; cbn [wrun]; intros s s1 s' R E; [injection E as <-; exact R|].
  destruct (label_of bs w) as [l|] eqn:Hl; [|discriminate].
  destruct (nat63b (entry_time l)) eqn:Hn; [|discriminate].
  destruct (cstep c l s) as [s2|] eqn:Hs; [|discriminate].
  apply (IH s2); [|exact E]. eapply PRS; eauto; [apply nat63b_ok, Hn|].
  intros i b ->. apply Hb. eapply label_head; eauto.
Qed.

(** The start of a resuming session, computed. *)
Definition resume (c : ccfg) (rid ip : list Z) (config : Z) (d : disk) (log : list Z)
  : option (list file_chunks * tlm) :=
  match parseLog (fun _ => 0) (disk_opts c rid config d) (file_of log) [] with
  | Ret r =>
      if pr_status r =? OK then
        match writeLogHeader 0 {| tm_open := true; tm_file := pr_file r; tm_rid := rid; tm_ip := ip;
                                  tm_config := config; tm_entries := []; tm_status := OK;
                                  tm_headerWritten := false |} with
        | Ret m => Some (pr_infos r, m) | _ => None end
      else None
  | _ => None
  end.
Lemma nat63_0 : in_nat63 0. Proof. unfold in_nat63; lia. Qed.
Lemma resume_starts c rid ip config d log infos m : resume c rid ip config d log = Some (infos, m) ->
  starts c rid ip config d log infos m.
Proof.
  unfold resume. intros E. destruct (parseLog _ _ _ _) as [r| |] eqn:Hp; [|discriminate E|discriminate E].
  destruct (Z.eqb_spec (pr_status r) OK) as [Hs|]; [|discriminate E].
  destruct (writeLogHeader _ _) as [m'| |] eqn:Hw; [|discriminate E|discriminate E]. injection E as <- <-.
  exact (ST_resume _ _ _ _ _ _ (fun _ => 0) r 0 m' (fun _ => nat63_0) nat63_0 Hp Hs Hw).
Qed.

(** ---- the sessions ---- *)
Definition name_a : list Z := [97].
Definition plan1 (q : Z) (size alloc prev : Z) : fplans := fun k =>
  if k =? q then Some {| pl_name := name_a; pl_size := size; pl_alloc := alloc; pl_prev := prev |} else None.
Definition blk (q size alloc prev off len : Z) : block_details :=
  {| bd_fileName := name_a; bd_seqId := q; bd_dataSize := len; bd_offset := off; bd_fileSize := size;
     bd_alloc := alloc; bd_prevSeqId := prev |}.
Definition cfg (prealloc verify : bool) (byte : Z) : ccfg :=
  {| c_prealloc := prealloc; c_delete := false; c_verify := verify; c_src := fun _ _ => byte |}.
Definition from {A} (o : option A) (dflt : A) : A := match o with Some a => a | None => dflt end.
Definition nolog : tlm := closed_log [] [] 0 (file_of []).
Definition empty_disk : disk := fun _ => None.
(** Run a session of one thread from this disk and log: infos, final state. *)
Definition session (check : bool) (c : ccfg) (d : disk) (log : list Z) (bs : list block_details)
    (ws : list wstep) : option (list file_chunks * tlm * cstate) :=
  match resume c [1] [9] 0 d log with
  | Some (infos, m) =>
      match wrun check c bs ws (c_begin 1 d m) with
      | Some s => Some (infos, m, s)
      | None => None end
  | None => None
  end.
(** All of a block up to the last byte, which is left to [WL (CSync 0)]. *)
Definition fresh (k : nat) (bytes : list Z) : list wstep :=
  [WHead 0 k; WL (COpen 0); WL (CTrunc 0); WL (CAlloc 0); WL (CInval 0 1); WL (CCreate 0 1);
   WL (CWrite 0 bytes)].
Definition again (k : nat) (bytes : list Z) : list wstep :=
  [WHead 0 k; WL (COpen 0); WL (CWrite 0 bytes)].
Definition finish : list wstep := [WL (CSync 0); WL (CMark 0 1); WL CFlush].

Lemma blk_planned q size alloc prev off len : in_nat63 q -> in_nat63 prev -> 0 <= off -> 0 <= len ->
  off + len <= size -> size < 2 ^ 63 -> planned (plan1 q size alloc prev) (blk q size alloc prev off len).
Proof.
  intros; unfold planned, plan1, blk; cbn [bd_fileName bd_seqId bd_dataSize bd_offset bd_fileSize bd_alloc bd_prevSeqId].
  rewrite Z.eqb_refl. change (zlen name_a) with 1. repeat split; auto; try apply H; try apply H0; lia.
Qed.
Lemma plan1_some q size alloc prev k f : plan1 q size alloc prev k = Some f ->
  k = q /\ f = {| pl_name := name_a; pl_size := size; pl_alloc := alloc; pl_prev := prev |}.
Proof. unfold plan1; destruct (Z.eqb_spec k q); [|discriminate]. intros E; injection E as <-; auto. Qed.
Lemma plan1_fits c q size alloc prev d infos :
  In alloc [NOT_EXISTS; EXISTS_CORRECT_SIZE; EXISTS_TOO_LARGE; EXISTS_TOO_SMALL] ->
  (alloc = EXISTS_TOO_SMALL -> forall v, d name_a = Some v -> zlen v <= size) ->
  (alloc = NOT_EXISTS -> infos = []) ->
  (forall i, In i infos -> fc_fileName i = name_a) ->
  (alloc = EXISTS_TOO_LARGE -> c_prealloc c = true) ->
  plan_fits c (plan1 q size alloc prev) d infos.
Proof.
  intros Ha Hm Hn Hi Hs. constructor.
  - intros q1 q2 f1 f2 H1 H2 _. apply plan1_some in H1, H2; lia.
  - intros k f H; apply plan1_some in H; destruct H as [_ ->]. cbn in *; tauto.
  - intros k f H A x (i & I & _); apply plan1_some in H; destruct H as [_ ->]. rewrite (Hn A) in I; exact I.
  - intros k f i H _ I _; apply plan1_some in H; destruct H as [_ ->]. exact (Hi _ I).
  - intros k f v H A; apply plan1_some in H; destruct H as [_ ->]. exact (Hm A v).
  - intros k f H A; apply plan1_some in H; destruct H as [_ ->]. exact (Hs A).
Qed.

Lemma session_parts check c d log bs ws infos m s : session check c d log bs ws = Some (infos, m, s) ->
  starts c [1] [9] 0 d log infos m /\ wrun check c bs ws (c_begin 1 d m) = Some s.
Proof.
  unfold session. intros E. destruct (resume _ _ _ _ _ _) as [[i0 m0]|] eqn:Hr; [|discriminate E].
  destruct (wrun _ _ _ _ _) as [s0|] eqn:Hw; [|discriminate E]. injection E as -> -> ->.
  split; [apply resume_starts; exact Hr|exact Hw].
Qed.
Lemma session_survives c d log bs ws infos m s p k : session true c d log bs ws = Some (infos, m, s) ->
  survives c [1] 0 d log -> plan_fits c p d infos -> (forall b, In b bs -> planned p b) ->
  survives c [1] 0 (cs_disk s) (log_after_death k s).
Proof.
  intros E S Pf Hb. destruct (session_parts _ _ _ _ _ _ _ _ _ E) as [St Hw].
  eapply (SV_session _ _ _ d log [9] infos m p 1 s k); [exact S|vm_compute; discriminate|exact St|exact Pf|].
  eapply wrun_careful; [exact Hb|apply CR0|exact Hw].
Qed.
Definition good_session (o : option (list file_chunks * tlm * cstate)) : bool :=
  match o with Some _ => true | None => false end.
Definition dead : list file_chunks * tlm * cstate := ([], nolog, c_begin 0 empty_disk nolog).
Definition told (o : option (list file_chunks * tlm * cstate)) : list file_chunks := fst (fst (from o dead)).
Definition final (o : option (list file_chunks * tlm * cstate)) : cstate := snd (from o dead).
Lemma good_some o : good_session o = true -> o = Some (told o, snd (fst (from o dead)), final o).
Proof. destruct o as [[[i m] s]|]; [reflexivity|discriminate]. Qed.

Lemma NE_TL : NOT_EXISTS <> EXISTS_TOO_LARGE. Proof. discriminate. Qed.
Lemma NE_TS : NOT_EXISTS <> EXISTS_TOO_SMALL. Proof. discriminate. Qed.
Lemma TL_TS : EXISTS_TOO_LARGE <> EXISTS_TOO_SMALL. Proof. discriminate. Qed.
Lemma TL_NE : EXISTS_TOO_LARGE <> NOT_EXISTS. Proof. discriminate. Qed.
Lemma TS_NE : EXISTS_TOO_SMALL <> NOT_EXISTS. Proof. discriminate. Qed.
Lemma TS_TL : EXISTS_TOO_SMALL <> EXISTS_TOO_LARGE. Proof. discriminate. Qed.
Lemma CS_NE : EXISTS_CORRECT_SIZE <> NOT_EXISTS. Proof. discriminate. Qed.
Lemma CS_TS : EXISTS_CORRECT_SIZE <> EXISTS_TOO_SMALL. Proof. discriminate. Qed.
Lemma CS_TL : EXISTS_CORRECT_SIZE <> EXISTS_TOO_LARGE. Proof. discriminate. Qed.

(** First session: a file of four bytes, blocks [0, 2) logged and [3, 4) only
    written. *)
Definition bs1 := [blk 0 4 NOT_EXISTS 0 0 2; blk 0 4 NOT_EXISTS 0 3 1].
Definition ws1 (byte : Z) := fresh 0 [byte; byte] ++ finish ++ again 1 [byte].
Notation one c byte := (session true c empty_disk [] bs1 (ws1 byte)).
Lemma bs1_planned b : In b bs1 -> planned (plan1 0 4 NOT_EXISTS 0) b.
Proof. intros [<-|[<-|[]]]; apply blk_planned; try apply nat63_0; lia. Qed.
Lemma one_survives c byte : good_session (one c byte) = true -> told (one c byte) = [] ->
  survives c [1] 0 (cs_disk (final (one c byte))) (log_after_death 0 (final (one c byte))).
Proof.
  intros G T. remember (one c byte) as o eqn:Eo. symmetry in Eo.
  apply good_some in G. rewrite T in G. rewrite G in Eo.
  eapply session_survives; [exact Eo|apply SV_new| |exact bs1_planned].
  apply plan1_fits; [left; reflexivity|intros X; destruct (NE_TS X)|reflexivity|intros i []|intros X; destruct (NE_TL X)].
Qed.

(** ---- misreports, computed ---- *)
Definition coveredb (l : list interval) (x : Z) : bool :=
  existsb (fun i => (iv_start i <=? x) && (x <? iv_end i)) l.
Definition reportedb (infos : list file_chunks) (name : list Z) (x : Z) : bool :=
  existsb (fun f => str_eqb (fc_fileName f) name && coveredb (fc_chunks f) x) infos.
Lemma reportedb_ok infos name x : reportedb infos name x = true -> reported infos name x.
Proof.
  intros H; apply existsb_exists in H; destruct H as (f & Hf & H). apply andb_true_iff in H.
  destruct H as [Hn Hc]. apply str_eqb_eq in Hn. exists f; split; [exact Hf|]; split; [exact Hn|].
  apply existsb_exists in Hc; destruct Hc as (i & Hi & Hx). exists i; split; [exact Hi|].
  apply andb_true_iff in Hx; lia.
Qed.
Definition misb (c : ccfg) (d : disk) (log name : list Z) (x : Z) : bool :=
  match parseLog (fun _ => 0) (disk_opts c [1] 0 d) (file_of log) [] with
  | Ret r => reportedb (pr_infos r) name x &&
             match d name with
             | Some f => match rd f x with Some v => negb (v =? c_src c name x) | None => true end
             | None => false end
  | _ => false
  end.
Lemma misb_ok c d log name x : misb c d log name x = true -> misreports c [1] 0 d log name x.
Proof.
  unfold misb, misreports. destruct (parseLog _ _ _ _) as [r| |]; try discriminate.
  intros H; apply andb_true_iff in H; destruct H as [H1 H2]. destruct (d name) as [f|]; [|discriminate].
  exists r, f; split; [reflexivity|]; split; [apply reportedb_ok, H1|]; split; [reflexivity|].
  destruct (rd f x) as [v|]; [|discriminate]. intros E; injection E as ->. rewrite Z.eqb_refl in H2; discriminate.
Qed.
Definition named_a (infos : list file_chunks) : bool :=
  forallb (fun f => str_eqb (fc_fileName f) name_a) infos.
Lemma named_a_ok infos : named_a infos = true -> forall i, In i infos -> fc_fileName i = name_a.
Proof. intros H i Hi. unfold named_a in H; rewrite forallb_forall in H. apply str_eqb_eq, H, Hi. Qed.

(** Second session: the file has shrunk to three bytes; its last byte is
    written. *)
Definition bs2 := [blk 1 3 EXISTS_TOO_LARGE 0 2 1].
Definition bs2' := [blk 1 3 EXISTS_TOO_LARGE 0 0 1].
Lemma bs2_planned b : In b bs2 -> planned (plan1 1 3 EXISTS_TOO_LARGE 0) b.
Proof. intros [<-|[]]; apply blk_planned; try apply nat63_0; unfold in_nat63; lia. Qed.
Lemma bs2'_planned b : In b bs2' -> planned (plan1 1 3 EXISTS_TOO_LARGE 0) b.
Proof. intros [<-|[]]; apply blk_planned; try apply nat63_0; unfold in_nat63; lia. Qed.

Notation disk1 c byte := (cs_disk (final (one c byte))).
Notation log1 c byte := (log_after_death 0 (final (one c byte))).

Lemma second_parts c c1 byte bs ws p : good_session (session true c (disk1 c1 byte) (log1 c1 byte) bs ws) = true ->
  named_a (told (session true c (disk1 c1 byte) (log1 c1 byte) bs ws)) = true ->
  (forall b, In b bs -> planned p b) ->
  exists infos m, starts c [1] [9] 0 (disk1 c1 byte) (log1 c1 byte) infos m /\
    (forall i, In i infos -> fc_fileName i = name_a) /\
    careful_run c p infos (c_begin 1 (disk1 c1 byte) m)
      (final (session true c (disk1 c1 byte) (log1 c1 byte) bs ws)).
Proof.
  intros G N Hb. remember (session true c (disk1 c1 byte) (log1 c1 byte) bs ws) as o eqn:Eo. symmetry in Eo.
  pose proof (named_a_ok _ N) as Hn.
  apply good_some in G. rewrite G in Eo. destruct (session_parts _ _ _ _ _ _ _ _ _ Eo) as [St Hw].
  eexists _, _; split; [exact St|]; split; [exact Hn|].
  eapply wrun_careful; [exact Hb|apply CR0|exact Hw].
Qed.

(** C52: without preallocation a file that shrinks. *)
Lemma shrunk_witness : exists c d log infos m p s,
  survives c [1] 0 d log /\ starts c [1] [9] 0 d log infos m /\ plan_fits (any_shrink c) p d infos /\
  careful_run c p infos (c_begin 1 d m) s /\
  c_prealloc c = false /\ misreports c [1] 0 (cs_disk s) (log_after_death 0 s) name_a 0.
Proof.
  set (c := cfg false false 7).
  destruct (second_parts c c 7 bs2 (fresh 0 [7]) (plan1 1 3 EXISTS_TOO_LARGE 0)) as (infos & m & St & Hn & R);
    [vm_compute; reflexivity|vm_compute; reflexivity|exact bs2_planned|].
  eexists c, _, _, infos, m, _, _.
  split; [apply (one_survives c 7); vm_compute; reflexivity|].
  split; [exact St|]. split; [|split; [exact R|split; [reflexivity|]]].
  - apply plan1_fits; [right; right; left; reflexivity|intros X; destruct (TL_TS X)|intros X; destruct (TL_NE X)|exact Hn|reflexivity].
  - apply misb_ok; vm_compute; reflexivity.
Qed.

(** C52: with preallocation; the file first grows, then shrinks and its content
    changes. The report mixes both versions. *)
Definition bsA := [blk 0 2 NOT_EXISTS 0 0 2].
Definition bsB := [blk 0 4 EXISTS_TOO_SMALL 0 2 2].
Lemma bsA_planned b : In b bsA -> planned (plan1 0 2 NOT_EXISTS 0) b.
Proof. intros [<-|[]]; apply blk_planned; try apply nat63_0; unfold in_nat63; lia. Qed.
Lemma bsB_planned b : In b bsB -> planned (plan1 0 4 EXISTS_TOO_SMALL 0) b.
Proof. intros [<-|[]]; apply blk_planned; try apply nat63_0; unfold in_nat63; lia. Qed.
Notation growA c := (session true c empty_disk [] bsA (fresh 0 [7; 7] ++ finish)).
Notation growB c := (session true c (cs_disk (final (growA c))) (log_after_death 0 (final (growA c))) bsB
  [WHead 0 0; WL (COpen 0); WL (CTrunc 0); WL (CAlloc 0)]).
Notation growC c c2 := (session true c2 (cs_disk (final (growB c))) (log_after_death 0 (final (growB c))) bs2'
  (fresh 0 [8])).
Definition size_b (d : disk) (n : Z) : bool :=
  match d name_a with Some v => zlen v <=? n | None => true end.
Lemma size_b_ok d n : size_b d n = true -> forall v, d name_a = Some v -> zlen v <= n.
Proof. unfold size_b; intros H v E; rewrite E in H; lia. Qed.
Lemma changed_witness : exists c1 c2 d log infos m p s,
  survives c1 [1] 0 d log /\ starts c2 [1] [9] 0 d log infos m /\ plan_fits c2 p d infos /\
  careful_run c2 p infos (c_begin 1 d m) s /\ c_prealloc c2 = true /\
  misreports c1 [1] 0 (cs_disk s) (log_after_death 0 s) name_a 0 /\
  misreports c2 [1] 0 (cs_disk s) (log_after_death 0 s) name_a 1.
Proof.
  set (c1 := cfg true false 7). set (c2 := cfg true false 8).
  assert (GA : good_session (growA c1) = true) by (vm_compute; reflexivity).
  assert (TA : told (growA c1) = []) by (vm_compute; reflexivity).
  assert (ZA : size_b (cs_disk (final (growA c1))) 4 = true) by (vm_compute; reflexivity).
  assert (GB : good_session (growB c1) = true) by (vm_compute; reflexivity).
  assert (NB : named_a (told (growB c1)) = true) by (vm_compute; reflexivity).
  assert (GC : good_session (growC c1 c2) = true) by (vm_compute; reflexivity).
  assert (NC : named_a (told (growC c1 c2)) = true) by (vm_compute; reflexivity).
  assert (M1 : misb c1 (cs_disk (final (growC c1 c2))) (log_after_death 0 (final (growC c1 c2))) name_a 0 = true)
    by (vm_compute; reflexivity).
  assert (M2 : misb c2 (cs_disk (final (growC c1 c2))) (log_after_death 0 (final (growC c1 c2))) name_a 1 = true)
    by (vm_compute; reflexivity).
  remember (growA c1) as oa eqn:Ea. symmetry in Ea. apply good_some in GA. rewrite GA in Ea.
  remember (session true c1 (cs_disk (final oa)) (log_after_death 0 (final oa)) bsB
    [WHead 0 0; WL (COpen 0); WL (CTrunc 0); WL (CAlloc 0)]) as ob eqn:Eb.
  symmetry in Eb. apply good_some in GB. rewrite GB in Eb.
  remember (session true c2 (cs_disk (final ob)) (log_after_death 0 (final ob)) bs2' (fresh 0 [8])) as oc eqn:Ec.
  symmetry in Ec. apply good_some in GC. rewrite GC in Ec.
  assert (SA : survives c1 [1] 0 (cs_disk (final oa)) (log_after_death 0 (final oa))).
  { eapply session_survives; [exact Ea|apply SV_new| |exact bsA_planned].
    rewrite TA. apply plan1_fits; [left; reflexivity|intros X; destruct (NE_TS X)|reflexivity|intros i []|intros X; destruct (NE_TL X)]. }
  assert (SB : survives c1 [1] 0 (cs_disk (final ob)) (log_after_death 0 (final ob))).
  { eapply session_survives; [exact Eb|exact SA| |exact bsB_planned].
    apply plan1_fits; [do 3 right; left; reflexivity|intros _; exact (size_b_ok _ _ ZA)
                      |intros X; destruct (TS_NE X)|exact (named_a_ok _ NB)|intros X; destruct (TS_TL X)]. }
  destruct (session_parts _ _ _ _ _ _ _ _ _ Ec) as [St Hw].
  eexists c1, c2, _, _, (told oc), _, (plan1 1 3 EXISTS_TOO_LARGE 0), (final oc).
  split; [exact SB|]. split; [exact St|].
  split; [apply plan1_fits; [right; right; left; reflexivity|intros X; destruct (TL_TS X)|intros X; destruct (TL_NE X)|exact (named_a_ok _ NC)|reflexivity]|].
  split; [eapply wrun_careful; [exact bs2'_planned|apply CR0|exact Hw]|].
  split; [reflexivity|]. split; apply misb_ok; assumption.
Qed.

(** C52: a block that is already logged is sent again, with wrong bytes. *)
Notation resent c := (session false c empty_disk [] bs1 (fresh 0 [7; 7] ++ finish ++ again 0 [9])).
Lemma resent_witness : exists c infos m p s,
  starts c [1] [9] 0 empty_disk [] infos m /\ plan_fits c p empty_disk infos /\
  planned_run c p (c_begin 1 empty_disk m) s /\
  c_verify c = true /\ misreports c [1] 0 (cs_disk s) (log_after_death 0 s) name_a 0.
Proof.
  set (c := cfg true true 7).
  assert (G : good_session (resent c) = true) by (vm_compute; reflexivity).
  assert (T : told (resent c) = []) by (vm_compute; reflexivity).
  assert (M : misb c (cs_disk (final (resent c))) (log_after_death 0 (final (resent c))) name_a 0 = true)
    by (vm_compute; reflexivity).
  remember (resent c) as o eqn:Eo. symmetry in Eo.
  apply good_some in G. rewrite T in G. rewrite G in Eo.
  destruct (session_parts _ _ _ _ _ _ _ _ _ Eo) as [St Hw].
  eexists c, [], _, (plan1 0 4 NOT_EXISTS 0), (final o).
  split; [exact St|]. split; [apply plan1_fits; [left; reflexivity|intros X; destruct (NE_TS X)|reflexivity|intros i []|intros X; destruct (NE_TL X)]|].
  split; [eapply wrun_planned; [exact bs1_planned|apply PR0|exact Hw]|].
  split; [reflexivity|]. apply misb_ok; exact M.
Qed.

(** C52: an invalid log that becomes acceptable again. *)
Notation cut1 c := (session true c (disk1 c 7) (log1 c 7) bs2 [WHead 0 0; WL (COpen 0); WL (CTrunc 0)]).
Definition bs3 := [blk 0 3 NOT_EXISTS 0 2 1].
Lemma bs3_planned b : In b bs3 -> planned (plan1 0 3 NOT_EXISTS 0) b.
Proof. intros [<-|[]]; apply blk_planned; try apply nat63_0; unfold in_nat63; lia. Qed.
Definition invalid_b (c : ccfg) (d : disk) (log : list Z) : bool :=
  match parseLog (fun _ => 0) (disk_opts c [1] 0 d) (file_of log) [] with
  | Ret r => (pr_status r =? INVALID_LOG)
  | _ => false end.
Lemma invalid_b_ok c d log : invalid_b c d log = true ->
  exists r, parseLog (fun _ => 0) (disk_opts c [1] 0 d) (file_of log) [] = Ret r /\ pr_status r = INVALID_LOG.
Proof.
  unfold invalid_b. destruct (parseLog _ _ _ _) as [r| |]; intros I; [|discriminate I|discriminate I].
  exists r; split; [reflexivity|apply Z.eqb_eq, I].
Qed.
Definition third_b (c : ccfg) (bs : list block_details) (ws : list wstep) (s0 : cstate) : bool :=
  match wrun true c bs ws s0 with
  | Some s => misb c (cs_disk s) (log_after_death 0 s) name_a 0
  | None => false end.
Lemma third_ok c p bs ws s0 : third_b c bs ws s0 = true -> (forall b, In b bs -> planned p b) ->
  exists s, careful_run c p [] s0 s /\ misreports c [1] 0 (cs_disk s) (log_after_death 0 s) name_a 0.
Proof.
  unfold third_b. destruct (wrun _ _ _ _ _) as [s|] eqn:E; intros H Hb; [|discriminate H].
  exists s; split; [eapply wrun_careful; [exact Hb|apply CR0|exact E]|apply misb_ok, H].
Qed.
Lemma invalid_witness : exists c d log infos m p s p' s',
  survives c [1] 0 d log /\ starts c [1] [9] 0 d log infos m /\ plan_fits (any_shrink c) p d infos /\
  careful_run c p infos (c_begin 1 d m) s /\
  (exists r, parseLog (fun _ => 0) (disk_opts c [1] 0 (cs_disk s)) (file_of (log_after_death 0 s)) [] = Ret r /\
             pr_status r = INVALID_LOG) /\
  plan_fits c p' (cs_disk s) [] /\
  careful_run c p' [] (c_begin 1 (cs_disk s) (closed_log [1] [9] 0 (file_of (log_after_death 0 s)))) s' /\
  misreports c [1] 0 (cs_disk s') (log_after_death 0 s') name_a 0.
Proof.
  set (c := cfg false false 7).
  destruct (second_parts c c 7 bs2 [WHead 0 0; WL (COpen 0); WL (CTrunc 0)] (plan1 1 3 EXISTS_TOO_LARGE 0))
    as (infos & m & St & Hn & R);
    [vm_compute; reflexivity|vm_compute; reflexivity|exact bs2_planned|].
  destruct (third_ok c (plan1 0 3 NOT_EXISTS 0) bs3 (fresh 0 [7])
    (c_begin 1 (cs_disk (final (cut1 c))) (closed_log [1] [9] 0 (file_of (log_after_death 0 (final (cut1 c)))))))
    as (s' & R' & M); [vm_compute; reflexivity|exact bs3_planned|].
  eexists c, _, _, infos, m, _, _, (plan1 0 3 NOT_EXISTS 0), s'.
  split; [apply (one_survives c 7); vm_compute; reflexivity|].
  split; [exact St|].
  split; [apply plan1_fits; [right; right; left; reflexivity|intros X; destruct (TL_TS X)
    |intros X; destruct (TL_NE X)|exact Hn|reflexivity]|].
  split; [exact R|].
  split; [apply invalid_b_ok; vm_compute; reflexivity|].
  split; [apply plan1_fits; [left; reflexivity|intros X; destruct (NE_TS X)|reflexivity|intros i []
    |intros X; destruct (NE_TL X)]|].
  split; [exact R'|exact M].
Qed.

(** Two sessions; the second finishes the file. *)
Definition bs4 := [blk 0 4 EXISTS_CORRECT_SIZE 0 2 2].
Lemma bs4_planned b : In b bs4 -> planned (plan1 0 4 EXISTS_CORRECT_SIZE 0) b.
Proof. intros [<-|[]]; apply blk_planned; try apply nat63_0; unfold in_nat63; lia. Qed.
Notation two c := (session true c (disk1 c 7) (log1 c 7) bs4 (again 0 [7; 7] ++ finish)).
Definition reports_b (c : ccfg) (d : disk) (log : list Z) (l : list Z) : bool :=
  match parseLog (fun _ => 0) (disk_opts c [1] 0 d) (file_of log) [] with
  | Ret r => forallb (reportedb (pr_infos r) name_a) l
  | _ => false end.
Lemma reports_b_ok c d log : reports_b c d log [0; 3] = true ->
  exists r, parseLog (fun _ => 0) (disk_opts c [1] 0 d) (file_of log) [] = Ret r /\
    reported (pr_infos r) name_a 0 /\ reported (pr_infos r) name_a 3.
Proof.
  unfold reports_b. destruct (parseLog _ _ _ _) as [r| |]; intros M; [|discriminate M|discriminate M].
  cbn [forallb] in M. apply andb_true_iff in M; destruct M as [M1 M2].
  apply andb_true_iff in M2; destruct M2 as [M2 _].
  exists r; split; [reflexivity|]. split; apply reportedb_ok; assumption.
Qed.
Lemma second_survives c d log bs ws q size : good_session (session true c d log bs ws) = true ->
  named_a (told (session true c d log bs ws)) = true -> survives c [1] 0 d log ->
  (forall b, In b bs -> planned (plan1 q size EXISTS_CORRECT_SIZE 0) b) ->
  survives c [1] 0 (cs_disk (final (session true c d log bs ws)))
    (log_after_death 0 (final (session true c d log bs ws))).
Proof.
  intros G N S1 Hb. remember (session true c d log bs ws) as o eqn:Eo. symmetry in Eo.
  apply good_some in G. rewrite G in Eo.
  eapply session_survives; [exact Eo|exact S1| |exact Hb].
  apply plan1_fits; [right; left; reflexivity|intros X; destruct (CS_TS X)|intros X; destruct (CS_NE X)
    |exact (named_a_ok _ N)|intros X; destruct (CS_TL X)].
Qed.
Lemma two_sessions : exists c d log r,
  survives c [1] 0 d log /\ parseLog (fun _ => 0) (disk_opts c [1] 0 d) (file_of log) [] = Ret r /\
  reported (pr_infos r) name_a 0 /\ reported (pr_infos r) name_a 3.
Proof.
  set (c := cfg true true 7).
  assert (S1 : survives c [1] 0 (disk1 c 7) (log1 c 7)) by (apply (one_survives c 7); vm_compute; reflexivity).
  destruct (reports_b_ok c (cs_disk (final (two c))) (log_after_death 0 (final (two c)))) as (r & H1 & H2);
    [vm_compute; reflexivity|].
  exists c. eexists _, _, r. split; [|split; [exact H1|exact H2]].
  apply (second_survives c _ _ bs4 (again 0 [7; 7] ++ finish) 0 4);
    [vm_compute; reflexivity|vm_compute; reflexivity|exact S1|exact bs4_planned].
Qed.
