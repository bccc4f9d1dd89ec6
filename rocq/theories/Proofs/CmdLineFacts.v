(** Proofs about the command line. *)
From Coq Require Import Lia ZArith List Bool.
From Verif Require Import Model.CmdLine Spec.CmdLineSpec Proofs.UriFacts.
Import ListNotations.
Open Scope Z_scope.

Lemma pieces_nonempty sep s : pieces sep s <> [].
Proof. destruct s as [|c r]; [discriminate|]. cbn. destruct (c =? sep); [discriminate|]. destruct (pieces sep r); discriminate. Qed.
Lemma pieces_app sep a b : ~ In sep a -> pieces sep (a ++ sep :: b) = a :: pieces sep b.
Proof.
  induction a as [|c a IH]; intros N.
  - cbn. rewrite Z.eqb_refl. reflexivity.
  - cbn [app pieces]. destruct (Z.eqb_spec c sep) as [->|]; [elim N; left; reflexivity|].
    rewrite IH; [reflexivity|]. intros J. apply N. right. exact J.
Qed.
Lemma pieces_one sep a : ~ In sep a -> pieces sep a = [a].
Proof.
  induction a as [|c a IH]; intros N; [reflexivity|]. cbn [pieces].
  destruct (Z.eqb_spec c sep) as [->|]; [elim N; left; reflexivity|].
  rewrite IH; [reflexivity|]. intros J. apply N. right. exact J.
Qed.
Lemma print_int_no z c : is_digit c = false -> c <> 45 -> ~ In c (print_int z).
Proof. intros D N J. destruct (print_int_chars z c J) as [X|X]; congruence. Qed.
Lemma nonempty_filter (p : list Z) l : p <> [] ->
  filter (fun p : list Z => match p with [] => false | _ => true end) (p :: l) =
  p :: filter (fun p : list Z => match p with [] => false | _ => true end) l.
Proof. destruct p; [contradiction|]. reflexivity. Qed.

Lemma row_read d r : good_row r -> manifest_line d (row_text r) = Ret (row_means d r).
Proof.
  intros (E & N9 & N10 & Z1). unfold manifest_line, fields_of. destruct r as [n|n z|n z b]; cbn [row_name row_text] in *.
  - rewrite pieces_one by exact N9. rewrite nonempty_filter by exact E. reflexivity.
  - cbn [app]. rewrite pieces_app by exact N9. rewrite pieces_one by (apply print_int_no; [reflexivity|discriminate]).
    rewrite !nonempty_filter by (exact E || apply print_int_nonempty). cbn [filter].
    unfold parse_i64. rewrite parse_print by lia. reflexivity.
  - cbn [app]. rewrite pieces_app by exact N9. rewrite pieces_app by (apply print_int_no; [reflexivity|discriminate]).
    rewrite !nonempty_filter by (exact E || apply print_int_nonempty).
    unfold parse_i64. destruct b; cbn [pieces filter Z.eqb Pos.eqb]; rewrite parse_print by lia; reflexivity.
Qed.
Lemma row_no_newline r : good_row r -> ~ In 10 (row_text r).
Proof.
  intros (E & N9 & N10 & Z1). destruct r as [n|n z|n z b]; cbn [row_name row_text] in *; [exact N10| |].
  - cbn [app]. rewrite in_app_iff. cbn [In]. intros [J|[J|J]]; [contradiction|discriminate|].
    revert J. apply print_int_no; [reflexivity|discriminate].
  - cbn [app]. rewrite in_app_iff. cbn [In]. rewrite in_app_iff. cbn [In]. intros [J|[J|[J|[J|[J|J]]]]]; try contradiction; try discriminate.
    + revert J. apply print_int_no; [reflexivity|discriminate].
    + destruct b; discriminate.
Qed.
Lemma row_text_nonempty r : good_row r -> row_text r <> [].
Proof. intros (E & _). destruct r as [n|n z|n z b]; cbn [row_name row_text] in *; destruct n; try contradiction; discriminate. Qed.
Lemma no_last_empty_cons x l : x <> [] -> no_last_empty (x :: l) = x :: no_last_empty l.
Proof. destruct x; [contradiction|]. reflexivity. Qed.

Lemma manifest_read d rows : Forall good_row rows -> read_manifest d (rows_text rows) = Ret (map (row_means d) rows).
Proof.
  unfold read_manifest, lines_of, rows_text. induction 1 as [|r rows G F IH]; [reflexivity|].
  cbn [map concat]. rewrite <- app_assoc. cbn [app]. rewrite pieces_app by (apply row_no_newline; exact G).
  rewrite no_last_empty_cons by (apply row_text_nonempty; exact G). cbn [read_lines]. rewrite row_read by exact G.
  cbn [obind]. rewrite IH. reflexivity.
Qed.
Lemma manifest_read_open d rows r : Forall good_row rows -> good_row r ->
  read_manifest d (rows_text rows ++ row_text r) = Ret (map (row_means d) (rows ++ [r])).
Proof.
  intros F G. unfold read_manifest, lines_of, rows_text. induction F as [|q rows Q F IH].
  - cbn [map concat app]. rewrite pieces_one by (apply row_no_newline; exact G).
    rewrite no_last_empty_cons by (apply row_text_nonempty; exact G). cbn [no_last_empty read_lines].
    rewrite row_read by exact G. reflexivity.
  - cbn [map concat app]. rewrite <- !app_assoc. cbn [app]. rewrite pieces_app by (apply row_no_newline; exact Q).
    rewrite no_last_empty_cons by (apply row_text_nonempty; exact Q). cbn [read_lines]. rewrite row_read by exact Q.
    cbn [obind]. rewrite IH. reflexivity.
Qed.
(** A blank line anywhere. *)
Lemma manifest_blank d rows text : Forall good_row rows -> read_manifest d (rows_text rows ++ [10] ++ text) = Crash.
Proof.
  intros F. unfold read_manifest, lines_of, rows_text. induction F as [|q rows Q F IH].
  - cbn [map concat app pieces]. change (10 =? 10) with true. cbn iota. 
    pose proof (pieces_nonempty 10 text) as NE. destruct (pieces 10 text) as [|p l]; [contradiction|]. reflexivity.
  - cbn [map concat]. rewrite <- !app_assoc. cbn [app]. rewrite pieces_app by (apply row_no_newline; exact Q).
    rewrite no_last_empty_cons by (apply row_text_nonempty; exact Q). cbn [read_lines]. rewrite row_read by exact Q.
    cbn [obind]. cbn [app] in IH. rewrite IH. reflexivity.
Qed.

Lemma options_kept ty spec o n : spec n = true -> n <> StaticPorts -> oval n (modify_options ty spec o) = oval n o.
Proof.
  intros S N. destruct ty; cbn [modify_options].
  - destruct n; cbn [oval o_num_ports o_block_size o_disable_preallocation o_resume_using_dir_tree o_static_ports o_start_port
      o_enable_download_resumption o_skip_writes]; rewrite ?S; reflexivity.
  - destruct (spec StartPort && _); [|reflexivity]. destruct n; try reflexivity. contradiction.
  - destruct (spec StartPort && _); [|reflexivity]. destruct n; try reflexivity. contradiction.
Qed.
Lemma options_disk spec o n : spec n = false -> oval n (modify_options Disk spec o) =
  match n with NumPorts => 3 | BlockSize => -1 | DisablePrealloc | DirTree => 1 | _ => oval n o end.
Proof.
  intros S. cbn [modify_options]. destruct n; cbn [oval o_num_ports o_block_size o_disable_preallocation o_resume_using_dir_tree
    o_static_ports o_start_port o_enable_download_resumption o_skip_writes]; rewrite ?S; reflexivity.
Qed.
Lemma options_flash ty spec o n : ty <> Disk -> oval n (modify_options ty spec o) =
  match n with StaticPorts => if spec StartPort then 1 else oval StaticPorts o | _ => oval n o end.
Proof.
  intros N. destruct ty; [contradiction| |]; cbn [modify_options];
    destruct (spec StartPort), o as [? ? ? ? [] ? ? ?], n; reflexivity.
Qed.
Lemma kinds o : log_based o = true \/ tree_based o = true <-> o_enable_download_resumption o = true.
Proof. unfold log_based, tree_based. destruct o as [? ? ? [] ? ? [] ?]; cbn; intuition discriminate. Qed.
Lemma kinds_exclusive o : ~ (log_based o = true /\ tree_based o = true).
Proof. unfold log_based, tree_based. destruct o as [? ? ? [] ? ? [] ?]; cbn; intuition discriminate. Qed.
Lemma checks falloc o : init_checks falloc o = Crash <->
  o_enable_download_resumption o = true /\
  (o_skip_writes o = true \/ (o_resume_using_dir_tree o = true /\ falloc = true /\ o_disable_preallocation o = false)).
Proof.
  unfold init_checks, should_preallocate. destruct o as [? ? [] [] ? ? [] []], falloc; cbn; intuition discriminate.
Qed.
Lemma disk_resumes falloc spec o : o_skip_writes o = false -> spec DisablePrealloc = false ->
  init_checks falloc (modify_options Disk spec o) = Ret tt.
Proof.
  intros S P. unfold init_checks, should_preallocate. cbn [modify_options o_enable_download_resumption o_skip_writes o_resume_using_dir_tree o_disable_preallocation].
  rewrite S, P. cbn [negb]. destruct (o_enable_download_resumption o); [|reflexivity].
  destruct (if spec DirTree then _ else _); [|reflexivity]. destruct falloc; reflexivity.
Qed.

Lemma receives f args line : the_mode f args line = Ret MReceive ->
  fl_url f = [] /\ fl_destination f = [] /\ fl_print_options f = false /\ fl_parse_log f = false /\
  (fl_bad f = false -> args = []).
Proof.
  unfold the_mode. destruct f as [[] [] [] [] [|u us] [|d ds] fe da]; cbn [fl_bad fl_exit_on_bad fl_print_options fl_parse_log fl_url
    fl_destination andb negb orb is_nil]; try discriminate;
  destruct args as [|a [|a2 args]]; cbn [is_nil negb andb]; try discriminate; try (intros _; repeat split; reflexivity || discriminate);
  try (destruct (str_eqb a [45]); cbn [negb andb]; try discriminate);
  try (destruct line as [|x line]; cbn [is_nil]; try discriminate);
  try (destruct (parseRequest _) as [r| |]; cbn [obind]; try discriminate; destruct (r_error r =? OK); discriminate).
Qed.
Lemma sends f args line u : the_mode f args line = Ret (MSend u) ->
  (u = [] /\ fl_destination f <> [] /\ fl_url f = []) \/
  (u <> [] /\ (exists r, parseRequest u = Ret r /\ r_error r = OK) /\
   u = (if negb (fl_bad f) && negb (is_nil args) then line else fl_url f)).
Proof.
  unfold the_mode. intros H.
  destruct (fl_bad f && fl_exit_on_bad f); [discriminate|].
  destruct (negb (fl_bad f) && match args with [] => false | [a] => negb (str_eqb a [45]) | _ => true end); [discriminate|].
  set (minus := negb (fl_bad f) && negb (is_nil args)) in *.
  destruct (minus && is_nil line) eqn:ML; [discriminate|].
  destruct (fl_print_options f); [discriminate|]. destruct (fl_parse_log f); [discriminate|].
  destruct (is_nil (if minus then line else fl_url f)) eqn:N.
  - left. destruct minus; [rewrite N in ML; discriminate|]. destruct (fl_url f); [|discriminate].
    destruct (fl_destination f); [discriminate|]. cbn [is_nil] in H. injection H as <-. repeat split; discriminate.
  - right. destruct (parseRequest _) as [r| |] eqn:P; cbn [obind] in H; try discriminate.
    destruct (Z.eqb_spec (r_error r) OK) as [E|]; [|discriminate]. injection H as <-.
    split; [intros X; rewrite X in N; discriminate|]. split; [exists r; split; [exact P|exact E]|reflexivity].
Qed.
Lemma minus_means f line : fl_bad f = false -> fl_print_options f = false -> fl_parse_log f = false ->
  the_mode f [[45]] line =
  match line with [] => Ret (MExit URI_PARSE_ERROR)
  | _ => obind (parseRequest line) (fun r => Ret (if r_error r =? OK then MSend line else MExit ERROR)) end.
Proof.
  intros B P L. unfold the_mode. rewrite B, P, L. cbn [andb negb is_nil str_eqb]. destruct line; reflexivity.
Qed.
Lemma status f m r : (match m with MExit s => 0 <= s < 256 | _ => True end) ->
  0 <= rs_init r < 256 -> 0 <= rs_start r < 256 -> 0 <= rs_finish r < 256 -> 0 <= rs_forever r < 256 -> 0 <= rs_send r < 256 ->
  (exit_status f m r = 0 <->
   match m with
   | MExit s => s = 0
   | MParseLog => rs_parsed r = true
   | MSend _ => rs_send r = OK
   | MReceive => (rs_init r = OK \/ (rs_init r = FEWER_PORTS /\ fl_fewer_is_error f = false)) /\
                 (if fl_daemon f then rs_forever r = OK else rs_start r = OK /\ rs_finish r = OK)
   end).
Proof.
  intros M I1 I2 I3 I4 I5. unfold exit_status. destruct m as [s| |u|].
  - rewrite Z.mod_small by lia. reflexivity.
  - destruct (rs_parsed r); cbn; intuition discriminate.
  - rewrite Z.mod_small by lia. reflexivity.
  - unfold FEWER_PORTS, OK in *.
    destruct (Z.eqb_spec (rs_init r) 19) as [E|E].
    + rewrite E. destruct (fl_fewer_is_error f); [cbn; intuition (discriminate || lia)|].
      destruct (fl_daemon f); [rewrite Z.mod_small by lia; intuition|].
      destruct (Z.eqb_spec (rs_start r) 0); rewrite Z.mod_small by lia; intuition.
    + destruct (Z.eqb_spec (rs_init r) 0) as [E0|E0]; cbn [negb].
      * destruct (fl_daemon f); [rewrite Z.mod_small by lia; intuition|].
        destruct (Z.eqb_spec (rs_start r) 0); rewrite Z.mod_small by lia; intuition.
      * rewrite Z.mod_small by lia. intuition.
Qed.

(** The alarm. *)
Definition AInv (s : alarm) (l : list aev) : Prop :=
  al_cancelled s = al_main_done s /\ (al_main_done s = true -> al_timer s <> TWait) /\
  ((al_timer s = TTimeout \/ al_timer s = TEnd true) -> In ATime l).
Lemma AInv_run l : forall s pre s', AInv s pre -> arun s l = Some s' -> AInv s' (pre ++ l).
Proof.
  induction l as [|e l IH]; intros s pre s' I H; [injection H as <-; rewrite app_nil_r; exact I|].
  cbn [arun] in H. destruct (astep s e) as [s1|] eqn:S1; [|discriminate].
  replace (pre ++ e :: l) with ((pre ++ [e]) ++ l) by (rewrite <- app_assoc; reflexivity).
  apply (IH s1); [|exact H]. clear IH H. destruct s as [t c d]. destruct I as (C & W & T). cbn in C, W, T. subst d.
  destruct e, t, c; cbn in S1; try discriminate; injection S1 as <-; unfold AInv; cbn;
    (split; [reflexivity|]); (split; [intros; try discriminate; try (apply W; reflexivity)|]);
    intros [X|X]; try discriminate; apply in_or_app; ((left; apply T; (now left) || (now right)) || (right; left; reflexivity)).
Qed.
Lemma alarm_ends l s : arun alarm_new l = Some s ->
  (al_timer s = TEnd true -> In ATime l) /\
  (In ACancel l -> (exists b, al_timer s = TEnd b) \/
                   exists s', astep s ALock = Some s' /\ al_timer s' = TEnd false).
Proof.
  intros H. assert (I : AInv s l).
  { apply (AInv_run l alarm_new [] s); [|exact H]. unfold AInv, alarm_new; cbn. repeat split; [discriminate|]. intros [X|X]; discriminate. }
  destruct I as (C & W & T). split; [intros E; apply T; right; exact E|]. intros J.
  assert (D : al_main_done s = true).
  { clear - J H. revert H. generalize alarm_new. induction l as [|e l IH]; intros s0 H; [contradiction|].
    cbn [arun] in H. destruct (astep s0 e) as [s1|] eqn:S1; [|discriminate].
    destruct J as [->|J]; [|exact (IH J s1 H)].
    assert (D1 : al_main_done s1 = true).
    { destruct s0 as [t c d]. cbn in S1. destruct d; [discriminate|]. injection S1 as <-. reflexivity. }
    clear - D1 H. revert s1 D1 H. induction l as [|e l IH]; intros s1 D H; [injection H as <-; exact D|].
    cbn [arun] in H. destruct (astep s1 e) as [s2|] eqn:S2; [|discriminate]. apply (IH s2); [|exact H].
    destruct s1 as [t c d]. cbn in D. subst d. destruct e, t; cbn in S2; try discriminate; injection S2 as <-; reflexivity. }
  destruct s as [t c d]. cbn in *. subst c d. destruct t.
  - right. eexists. split; reflexivity.
  - elim (W eq_refl). reflexivity.
  - right. eexists. split; reflexivity.
  - right. eexists. split; reflexivity.
  - left. eexists. reflexivity.
Qed.
Lemma static_ports : (exists spec o, spec StaticPorts = true /\ oval StaticPorts o = 0 /\
    oval StaticPorts (modify_options Flash spec o) = 1) /\
  (exists spec o, spec StartPort = true /\ oval StaticPorts (modify_options Disk spec o) = 0).
Proof. split; exists (fun _ => true), options_default; repeat split. Qed.
Lemma columns : read_manifest false [97; 9; 9; 49; 10] = Ret [([97], 1, false)] /\
  read_manifest false (row_text (Row1 [97; 9; 53])) = Ret [([97], 5, false)].
Proof. split; vm_compute; reflexivity. Qed.
Lemma bad_flag_receives : exists f line, line <> [] /\ the_mode f [[45]] line = Ret MReceive.
Proof.
  exists {| fl_bad := true; fl_exit_on_bad := false; fl_print_options := false; fl_parse_log := false;
            fl_url := []; fl_destination := []; fl_fewer_is_error := false; fl_daemon := false |}, [119].
  split; [discriminate|reflexivity].
Qed.
