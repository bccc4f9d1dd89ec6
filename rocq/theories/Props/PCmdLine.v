(** C69: the command line program. *)
From Coq Require Import ZArith List Bool String.
Import ListNotations.
From Verif Require Import Model.CmdLine Spec.CmdLineSpec Proofs.CmdLineFacts.
Open Scope list_scope.
Open Scope Z_scope.

(** ---- C69 ---- *)
(** What the user specified is kept, except that a start port makes the ports static. *)
Theorem C69_kept ty spec o n : spec n = true -> n <> StaticPorts -> oval n (modify_options ty spec o) = oval n o.
Proof. exact (options_kept ty spec o n). Qed.
Print Assumptions C69_kept.
(** The type disk changes four options, if not specified, and nothing else. *)
Theorem C69_disk spec o n : spec n = false -> oval n (modify_options Disk spec o) =
  match n with NumPorts => 3 | BlockSize => -1 | DisablePrealloc | DirTree => 1 | _ => oval n o end.
Proof. exact (options_disk spec o n). Qed.
Print Assumptions C69_disk.
(** All other types change nothing but static ports, when a start port is specified. *)
Theorem C69_flash ty spec o n : ty <> Disk -> oval n (modify_options ty spec o) =
  match n with StaticPorts => if spec StartPort then 1 else oval StaticPorts o | _ => oval n o end.
Proof. exact (options_flash ty spec o n). Qed.
Print Assumptions C69_flash.
(** A user who asks for ports that are not static gets static ones with a start port; and
    with the type disk a start port does not make them static. *)
Theorem C69_static_refuted : (exists spec o, spec StaticPorts = true /\ oval StaticPorts o = 0 /\
    oval StaticPorts (modify_options Flash spec o) = 1) /\
  (exists spec o, spec StartPort = true /\ oval StaticPorts (modify_options Disk spec o) = 0).
Proof. exact static_ports. Qed.
Print Assumptions C69_static_refuted.

(** With resumption exactly one of the two kinds is used. *)
Theorem C69_resumption o : (log_based o = true \/ tree_based o = true <-> o_enable_download_resumption o = true) /\
  ~ (log_based o = true /\ tree_based o = true).
Proof. exact (conj (kinds o) (kinds_exclusive o)). Qed.
Print Assumptions C69_resumption.
(** The combinations of options a receiver crashes on; the type disk is safe unless the
    user asks for preallocation. *)
Theorem C69_checks falloc o : init_checks falloc o = Crash <->
  o_enable_download_resumption o = true /\
  (o_skip_writes o = true \/ (o_resume_using_dir_tree o = true /\ falloc = true /\ o_disable_preallocation o = false)).
Proof. exact (checks falloc o). Qed.
Print Assumptions C69_checks.
Theorem C69_disk_resumes falloc spec o : o_skip_writes o = false -> spec DisablePrealloc = false ->
  init_checks falloc (modify_options Disk spec o) = Ret tt.
Proof. exact (disk_resumes falloc spec o). Qed.
Print Assumptions C69_disk_resumes.

(** A list of files is read as it was meant, with or without a newline at the end. *)
Theorem C69_manifest d rows : Forall good_row rows -> read_manifest d (rows_text rows) = Ret (map (row_means d) rows).
Proof. exact (manifest_read d rows). Qed.
Print Assumptions C69_manifest.
Theorem C69_manifest_open d rows r : Forall good_row rows -> good_row r ->
  read_manifest d (rows_text rows ++ row_text r) = Ret (map (row_means d) (rows ++ [r])).
Proof. exact (manifest_read_open d rows r). Qed.
Print Assumptions C69_manifest_open.
(** A blank line ends the process. *)
Theorem C69_blank_refuted d rows text : Forall good_row rows -> read_manifest d (rows_text rows ++ [10] ++ text) = Crash.
Proof. exact (manifest_blank d rows text). Qed.
Print Assumptions C69_blank_refuted.
(** An empty column is dropped: a flag without a size is read as the size, and a name
    with a tab is cut. *)
Theorem C69_columns_refuted : read_manifest false [97; 9; 9; 49; 10] = Ret [([97], 1, false)] /\
  read_manifest false (row_text (Row1 [97; 9; 53])) = Ret [([97], 5, false)].
Proof. exact columns. Qed.
Print Assumptions C69_columns_refuted.

(** The program receives only if neither a URL nor a destination is given, and sends only
    to a destination given, or with a URL that is valid, from standard input after "-". *)
Theorem C69_receives f args line : the_mode f args line = Ret MReceive ->
  fl_url f = [] /\ fl_destination f = [] /\ fl_print_options f = false /\ fl_parse_log f = false /\
  (fl_bad f = false -> args = []).
Proof. exact (receives f args line). Qed.
Print Assumptions C69_receives.
Theorem C69_sends f args line u : the_mode f args line = Ret (MSend u) ->
  (u = [] /\ fl_destination f <> [] /\ fl_url f = []) \/
  (u <> [] /\ (exists r, parseRequest u = Ret r /\ r_error r = OK) /\
   u = (if negb (fl_bad f) && negb (is_nil args) then line else fl_url f)).
Proof. exact (sends f args line u). Qed.
Print Assumptions C69_sends.
Theorem C69_minus f line : fl_bad f = false -> fl_print_options f = false -> fl_parse_log f = false ->
  the_mode f [[45]] line =
  match line with [] => Ret (MExit URI_PARSE_ERROR)
  | _ => obind (parseRequest line) (fun r => Ret (if r_error r =? OK then MSend line else MExit ERROR)) end.
Proof. exact (minus_means f line). Qed.
Print Assumptions C69_minus.
(** Told to go on after a bad flag, a program meant to send becomes a receiver. *)
Theorem C69_minus_refuted : exists f line, line <> [] /\ the_mode f [[45]] line = Ret MReceive.
Proof. exact bad_flag_receives. Qed.
Print Assumptions C69_minus_refuted.

(** The status is 0 exactly if what was asked for was done. *)
Theorem C69_status f m r : (match m with MExit s => 0 <= s < 256 | _ => True end) ->
  0 <= rs_init r < 256 -> 0 <= rs_start r < 256 -> 0 <= rs_finish r < 256 -> 0 <= rs_forever r < 256 -> 0 <= rs_send r < 256 ->
  (exit_status f m r = 0 <->
   match m with
   | MExit s => s = 0
   | MParseLog => rs_parsed r = true
   | MSend _ => rs_send r = OK
   | MReceive => (rs_init r = OK \/ (rs_init r = FEWER_PORTS /\ fl_fewer_is_error f = false)) /\
                 (if fl_daemon f then rs_forever r = OK else rs_start r = OK /\ rs_finish r = OK)
   end).
Proof. exact (status f m r). Qed.
Print Assumptions C69_status.

(** The thread that aborts after some seconds does so only when they are over, and once
    the transfer is done it ends with its next step, however the two interleave. *)
Theorem C69_alarm l s : arun alarm_new l = Some s ->
  (al_timer s = TEnd true -> In ATime l) /\
  (In ACancel l -> (exists b, al_timer s = TEnd b) \/
                   exists s', astep s ALock = Some s' /\ al_timer s' = TEnd false).
Proof. exact (alarm_ends l s). Qed.
Print Assumptions C69_alarm.

Example C69_kept_example : let spec n := match n with NumPorts => true | _ => false end in
  spec NumPorts = true /\ oval NumPorts (modify_options Disk spec options_default) = 8 /\
  oval BlockSize (modify_options Disk spec options_default) = -1 /\ spec BlockSize = false.
Proof. repeat split. Qed.
Example C69_flash_example : oval StaticPorts (modify_options Flash (fun n => match n with StartPort => true | _ => false end) options_default) = 1 /\
  oval NumPorts (modify_options OtherType (fun _ => false) options_default) = 8.
Proof. repeat split. Qed.
Example C69_checks_example : let o := modify_options Disk (fun n => match n with DisablePrealloc => true | _ => false end)
    {| o_num_ports := 8; o_block_size := 16; o_disable_preallocation := false; o_resume_using_dir_tree := false; o_static_ports := false;
       o_start_port := 22356; o_enable_download_resumption := true; o_skip_writes := false |} in
  init_checks true o = Crash /\ tree_based o = true /\ log_based o = false.
Proof. repeat split. Qed.
Example C69_disk_resumes_example : o_skip_writes options_default = false /\
  init_checks true (modify_options Disk (fun _ => false) options_default) = Ret tt.
Proof. repeat split. Qed.
(** "a", "b.c" of 120 bytes, "d" of -1 bytes read directly. *)
Example C69_manifest_example : let rows := [Row1 [97]; Row2 [98; 46; 99] 120; Row3 [100; 32] (-1) true] in
  Forall good_row rows /\ rows_text rows = [97; 10; 98; 46; 99; 9; 49; 50; 48; 10; 100; 32; 9; 45; 49; 9; 49; 10] /\
  read_manifest false (rows_text rows) = Ret [([97], -1, false); ([98; 46; 99], 120, false); ([100; 32], -1, true)].
Proof.
  split; [|split; vm_compute; reflexivity].
  repeat constructor; cbn; try discriminate; intuition discriminate.
Qed.
Example C69_receives_example : the_mode {| fl_bad := false; fl_exit_on_bad := true; fl_print_options := false; fl_parse_log := false;
    fl_url := []; fl_destination := []; fl_fewer_is_error := false; fl_daemon := false |} [] [] = Ret MReceive.
Proof. reflexivity. Qed.
Example C69_sends_example : let f := {| fl_bad := false; fl_exit_on_bad := true; fl_print_options := false; fl_parse_log := false;
    fl_url := []; fl_destination := []; fl_fewer_is_error := false; fl_daemon := false |} in
  let url := bytes_of "wdt://host:1234?ports=1,2&id=7"%string in
  the_mode f [[45]] url = Ret (MSend url) /\ the_mode f [[45]] (bytes_of "wdt:/"%string) = Ret (MExit ERROR).
Proof. split; vm_compute; reflexivity. Qed.
Example C69_status_example : exists f r, exit_status f MReceive r = 0 /\ rs_init r = FEWER_PORTS /\ fl_fewer_is_error f = false.
Proof.
  exists {| fl_bad := false; fl_exit_on_bad := true; fl_print_options := false; fl_parse_log := false;
            fl_url := []; fl_destination := []; fl_fewer_is_error := false; fl_daemon := false |},
    {| rs_parsed := false; rs_init := 19; rs_start := 0; rs_finish := 0; rs_forever := 0; rs_send := 0 |}. repeat split.
Qed.
(** Woken for no reason, then cancelled while about to look. *)
Example C69_alarm_example : exists s, arun alarm_new [ALock; ASpurious; ACancel; ALock] = Some s /\ al_timer s = TEnd false.
Proof. eexists. split; reflexivity. Qed.
