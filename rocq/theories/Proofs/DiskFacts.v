From Verif Require Import Model.DiskIO Spec.DiskSpec Proofs.BytesFacts.

Lemma zlen_repeat {A} (x : A) n : zlen (repeat x n) = Z.of_nat n.
Proof. unfold zlen; rewrite repeat_length; reflexivity. Qed.
Lemma rd_repeat {A} (x : A) n i : 0 <= i < Z.of_nat n -> rd (repeat x n) i = Some x.
Proof.
  intros H. unfold rd. destruct (Z.ltb_spec i 0); [lia|].
  apply nth_error_repeat. lia.
Qed.
Lemma file_put_cons f pos bs : bs <> [] -> file_put f pos bs =
  firstn (Z.to_nat pos) (f ++ repeat 0 (Z.to_nat pos)) ++ bs ++ skipn (Z.to_nat pos + length bs) f.
Proof. destruct bs; [congruence|reflexivity]. Qed.
Lemma zlen_put f pos bs : 0 <= pos -> bs <> [] -> zlen (file_put f pos bs) = Z.max (zlen f) (pos + zlen bs).
Proof.
  intros Hp Hb. rewrite file_put_cons by exact Hb. rewrite !zlen_app.
  unfold zlen. rewrite firstn_length, app_length, repeat_length, skipn_length. lia.
Qed.
Lemma rd_put f pos bs j : 0 <= pos -> bs <> [] -> 0 <= j ->
  rd (file_put f pos bs) j =
    if j <? pos then (if j <? zlen f then rd f j else Some 0)
    else if j <? pos + zlen bs then rd bs (j - pos) else rd f j.
Proof.
  intros Hp Hb Hj. rewrite file_put_cons by exact Hb.
  assert (HL : zlen (firstn (Z.to_nat pos) (f ++ repeat 0 (Z.to_nat pos))) = pos).
  { unfold zlen. rewrite firstn_length, app_length, repeat_length. lia. }
  destruct (Z.ltb_spec j pos) as [H|H].
  - rewrite rd_app_l by lia. rewrite rd_firstn by lia.
    destruct (Z.ltb_spec j (zlen f)) as [H2|H2].
    + apply rd_app_l; lia.
    + rewrite rd_app_r by lia. apply rd_repeat. pose proof (zlen_nonneg f). lia.
  - rewrite rd_app_r by lia. rewrite HL.
    destruct (Z.ltb_spec j (pos + zlen bs)) as [H2|H2].
    + apply rd_app_l; lia.
    + rewrite rd_app_r by lia.
      replace (Z.to_nat pos + length bs)%nat with (Z.to_nat (pos + zlen bs)) by (unfold zlen; lia).
      rewrite rd_skipn by (pose proof (zlen_nonneg bs); lia).
      f_equal; lia.
Qed.
Lemma put_app f pos a b : 0 <= pos -> file_put f pos (a ++ b) = file_put (file_put f pos a) (pos + zlen a) b.
Proof.
  intros Hp. destruct a as [|x a]; [cbn [app]; change (zlen (@nil Z)) with 0; rewrite Z.add_0_r; reflexivity|].
  destruct b as [|y b]; [rewrite app_nil_r; reflexivity|].
  set (A := x :: a). set (B := y :: b).
  assert (HA : A <> []) by discriminate. assert (HB : B <> []) by discriminate.
  assert (HAB : A ++ B <> []) by discriminate.
  pose proof (zlen_nonneg A). pose proof (zlen_nonneg B). pose proof (zlen_nonneg f).
  apply rd_ext.
  - rewrite !zlen_put by (assumption || lia). rewrite zlen_app. lia.
  - intros i. destruct (Z.ltb_spec i 0) as [Hi|Hi]; [rewrite !rd_neg by lia; reflexivity|].
    rewrite !rd_put by (assumption || lia). rewrite zlen_put by (assumption || lia). rewrite zlen_app.
    repeat match goal with |- context [?p <? ?q] => destruct (Z.ltb_spec p q); try lia end;
      try reflexivity.
    + rewrite rd_app_l by lia; reflexivity.
    + rewrite rd_app_r by lia. f_equal; lia.
Qed.
Lemma put_holds f pos bs : 0 <= pos -> holds_at (file_put f pos bs) pos bs.
Proof.
  intros Hp i Hi. destruct bs as [|b bs]; [change (zlen (@nil Z)) with 0 in Hi; lia|].
  rewrite rd_put by (discriminate || lia).
  destruct (Z.ltb_spec (pos + i) pos); [lia|]. destruct (Z.ltb_spec (pos + i) (pos + zlen (b :: bs))); [|lia].
  f_equal; lia.
Qed.
Lemma put_unchanged f pos bs e : 0 <= pos -> pos + zlen bs <= e -> unchanged_outside f (file_put f pos bs) pos e.
Proof.
  intros Hp He j Hj Ho. destruct bs as [|b bs]; [reflexivity|].
  pose proof (zlen_nonneg (b :: bs)).
  rewrite rd_put by (discriminate || lia).
  repeat match goal with |- context [?p <? ?q] => destruct (Z.ltb_spec p q); try lia end; reflexivity.
Qed.
Lemma put_grown f pos bs e : 0 <= pos -> pos + zlen bs <= e -> grown_only f (file_put f pos bs) pos e.
Proof.
  intros Hp He. destruct bs as [|b bs].
  - cbn [file_put]. split; [lia|]. intros j Hj Hj'. cbn in Hj'. lia.
  - split; [rewrite zlen_put by (discriminate || lia); lia|].
    intros j Hj Hj'. pose proof (zlen_nonneg f).
    rewrite rd_put by (discriminate || lia).
    repeat match goal with |- context [?p <? ?q] => destruct (Z.ltb_spec p q); try lia end; reflexivity.
Qed.

(** The loop writes a prefix; all of it when it ends well. *)
Definition wpost (rest : list Z) (w w' : fwriter) (fin : list Z -> Prop) : Prop :=
  exists done todo, rest = done ++ todo /\
    fw_file w' = file_put (fw_file w) (fw_pos w) done /\
    fw_pos w' = fw_pos w + zlen done /\ fw_total w' = fw_total w /\
    fw_dataSize w' = fw_dataSize w /\ fin todo.
Lemma write_loop_put rs : forall rest w o rs', write_loop rs rest w = (o, rs') -> 0 <= fw_pos w ->
  match o with
  | WOut e w' => wpost rest w w' (fun todo => (e = OK /\ todo = []) \/ e = FILE_WRITE_ERROR)
  | WPending w' => wpost rest w w' (fun _ => True)
  | WImpossible => True
  end.
Proof.
  induction rs as [|r rs IH]; intros rest w o rs' H Hp.
  - destruct rest as [|x rest]; cbn in H; injection H as <- <-.
    + exists [], []. cbn. rewrite Z.add_0_r. repeat split; auto.
    + exists [], (x :: rest). cbn. rewrite Z.add_0_r. repeat split; auto.
  - destruct rest as [|x rest].
    + cbn in H. injection H as <- <-. exists [], []. cbn. rewrite Z.add_0_r. repeat split; auto.
    + set (R := x :: rest) in *. cbn [write_loop] in H. fold R in H. unfold R in H at 1. cbn beta iota in H.
      destruct r as [k| |].
      * destruct ((0 <=? k) && (k <=? zlen R)) eqn:Ek.
        -- apply andb_prop in Ek as [E1 E2]. apply Z.leb_le in E1, E2.
           specialize (IH _ _ _ _ H). cbn [fw_pos] in IH. specialize (IH ltac:(lia)).
           assert (HZ : zlen (firstn (Z.to_nat k) R) = k) by (rewrite zlen_firstn; lia).
           assert (G : forall w' fin, wpost (skipn (Z.to_nat k) R)
                {| fw_file := file_put (fw_file w) (fw_pos w) (firstn (Z.to_nat k) R);
                   fw_pos := fw_pos w + k; fw_total := fw_total w; fw_dataSize := fw_dataSize w |} w' fin ->
                wpost R w w' fin).
           { intros w' fin (d & t & H1 & H2 & H3 & H4 & H5 & H6). cbn [fw_file fw_pos fw_total fw_dataSize] in *.
             exists (firstn (Z.to_nat k) R ++ d), t.
             split; [rewrite <- app_assoc, <- H1, firstn_skipn; reflexivity|].
             split; [rewrite H2, put_app by exact Hp; rewrite HZ; reflexivity|].
             split; [rewrite H3, zlen_app, HZ; lia|]. auto. }
           destruct o as [e w'|w'|]; [apply G; exact IH|apply G; exact IH|exact I].
        -- injection H as <- <-. exact I.
      * exact (IH _ _ _ _ H Hp).
      * injection H as <- <-. exists [], R. cbn. rewrite Z.add_0_r. repeat split; auto.
Qed.
Lemma fwe_neq : (FILE_WRITE_ERROR =? OK) = false. Proof. reflexivity. Qed.
Lemma fw_write_ok skip sync rs w data w' rs' : skip = false -> 0 <= fw_pos w ->
  fw_write skip sync rs w data = (WOut OK w', rs') ->
  fw_file w' = file_put (fw_file w) (fw_pos w) data /\ fw_pos w' = fw_pos w + zlen data /\
  fw_total w' = fw_total w + zlen data /\ fw_dataSize w' = fw_dataSize w.
Proof.
  intros -> Hp H. unfold fw_write in H. destruct (write_loop rs data w) as [o rs0] eqn:E.
  pose proof (write_loop_put _ _ _ _ _ E Hp) as G.
  destruct o as [e w0|w0|]; try discriminate.
  destruct G as (d & t & H1 & H2 & H3 & H4 & H5 & [[-> ->]| ->]).
  - rewrite Z.eqb_refl in H. destruct sync; [|discriminate]. injection H as <- <-.
    rewrite app_nil_r in H1. subst d. cbn. repeat split; auto; lia.
  - rewrite fwe_neq in H. discriminate.
Qed.
(** Whatever the outcome, only the bytes being written can change. *)
Lemma fw_write_any skip sync rs w data e w' rs' : 0 <= fw_pos w ->
  fw_write skip sync rs w data = (WOut e w', rs') \/ fw_write skip sync rs w data = (WPending w', rs') ->
  exists done todo, data = done ++ todo /\ (fw_file w' = file_put (fw_file w) (fw_pos w) done).
Proof.
  intros Hp H. unfold fw_write in H. destruct skip.
  - destruct H as [H|H]; [|discriminate]. injection H as <- <- <-. exists [], data; auto.
  - destruct (write_loop rs data w) as [o rs0] eqn:E.
    pose proof (write_loop_put _ _ _ _ _ E Hp) as G.
    destruct o as [e0 w0|w0|].
    + destruct G as (d & t & H1 & H2 & _). exists d, t; split; [exact H1|].
      destruct (e0 =? OK), sync; destruct H as [H|H]; try discriminate; injection H as <- <- <-; exact H2.
    + destruct G as (d & t & H1 & H2 & _). exists d, t; split; [exact H1|].
      destruct H as [H|H]; try discriminate; injection H as <- <-; exact H2.
    + destruct H as [H|H]; discriminate.
Qed.
Lemma fw_writes_ok pieces : forall syncs rs w w' rs', 0 <= fw_pos w ->
  fw_writes syncs rs w pieces = (WOut OK w', rs') ->
  fw_file w' = file_put (fw_file w) (fw_pos w) (concat pieces) /\
  fw_total w' = fw_total w + zlen (concat pieces).
Proof.
  induction pieces as [|p ps IH]; intros syncs rs w w' rs' Hp H; cbn [fw_writes] in H.
  - injection H as <- <-. cbn. split; [reflexivity|lia].
  - destruct (fw_write false (hd true syncs) rs w p) as [o rs0] eqn:E.
    destruct o as [e w0|w0|]; try discriminate.
    destruct (e =? OK) eqn:Ee.
    + apply Z.eqb_eq in Ee. subst e.
      destruct (fw_write_ok _ _ _ _ _ _ _ eq_refl Hp E) as (H1 & H2 & H3 & H4).
      assert (Hp0 : 0 <= fw_pos w0) by (pose proof (zlen_nonneg p); lia).
      destruct (IH _ _ _ _ _ Hp0 H) as [G1 G2].
      cbn [concat]. rewrite put_app by exact Hp. rewrite zlen_app.
      rewrite G1, H1, H2. split; [reflexivity|lia].
    + injection H as -> <- <-. rewrite Z.eqb_refl in Ee; discriminate.
Qed.
(** A block written without error. *)
Lemma block_written syncs rs f off size pieces w' rs' : 0 <= off ->
  fw_writes syncs rs (fw_open f off size) pieces = (WOut OK w', rs') ->
  holds_at (fw_file w') off (concat pieces) /\
  unchanged_outside f (fw_file w') off (off + zlen (concat pieces)) /\
  grown_only f (fw_file w') off (off + zlen (concat pieces)) /\
  fw_total w' = zlen (concat pieces).
Proof.
  intros Hp H. assert (Ep : fw_pos (fw_open f off size) = off).
  { cbn. destruct (Z.ltb_spec 0 off); lia. }
  destruct (fw_writes_ok pieces _ _ _ _ _ ltac:(rewrite Ep; exact Hp) H) as [G1 G2].
  rewrite Ep in G1. cbn [fw_file fw_open fw_total] in G1, G2. rewrite G1.
  split; [apply put_holds; exact Hp|]. split; [apply put_unchanged; lia|].
  split; [apply put_grown; lia|]. cbn in G2. lia.
Qed.
Lemma write_reported sync rs w data w' rs' : 0 <= fw_pos w ->
  fw_write false sync rs w data = (WOut OK w', rs') ->
  holds_at (fw_file w') (fw_pos w) data /\
  unchanged_outside (fw_file w) (fw_file w') (fw_pos w) (fw_pos w + zlen data) /\
  grown_only (fw_file w) (fw_file w') (fw_pos w) (fw_pos w + zlen data) /\
  fw_pos w' = fw_pos w + zlen data /\ fw_total w' = fw_total w + zlen data.
Proof.
  intros Hp H. destruct (fw_write_ok _ _ _ _ _ _ _ eq_refl Hp H) as (H1 & H2 & H3 & H4).
  rewrite H1. split; [apply put_holds; exact Hp|]. split; [apply put_unchanged; lia|].
  split; [apply put_grown; lia|]. split; assumption.
Qed.
Lemma write_elsewhere skip sync rs w data e w' rs' : 0 <= fw_pos w ->
  fw_write skip sync rs w data = (WOut e w', rs') \/ fw_write skip sync rs w data = (WPending w', rs') ->
  unchanged_outside (fw_file w) (fw_file w') (fw_pos w) (fw_pos w + zlen data) /\
  grown_only (fw_file w) (fw_file w') (fw_pos w) (fw_pos w + zlen data).
Proof.
  intros Hp H. destruct (fw_write_any _ _ _ _ _ _ _ _ Hp H) as (d & t & -> & ->).
  rewrite zlen_app. pose proof (zlen_nonneg t).
  split; [apply put_unchanged; lia|apply put_grown; lia].
Qed.
