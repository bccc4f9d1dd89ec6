(** C71: options come from their flags. C72: a signal asks for one report. *)
From Coq Require Import ZArith List Bool String.
Import ListNotations.
From Verif Require Import Spec.FlagsSpec Proofs.FlagsFacts.
Open Scope list_scope.
Open Scope Z_scope.

(** ---- C71 ---- *)
(** C71: which options count as given by the user: those whose flag was given and, in
    programs that are not wdt's, those whose name is that of a flag of the program. *)
Theorem C71_specified sa fs n : specified sa fs n = true <->
  given fs (own_flag sa (option_name n)) \/ sa = false /\ given fs (option_name n).
Proof. exact (specified_iff sa fs n). Qed.
Print Assumptions C71_specified.
(** C71: an option whose flag was given has the value given, except that a start port makes
    the ports static. *)
Theorem C71_given sa fs v o n : unique fs -> all_flags sa fs v ->
  given fs (own_flag sa (option_name n)) -> n <> StaticPorts -> oval n (initialize_from_flags sa fs o) = v n.
Proof. exact (own_kept sa fs v o n). Qed.
Print Assumptions C71_given.
(** C71: an option not given, nor by accident, has the value of the type disk if it has one
    and else the default. *)
Theorem C71_disk sa fs v o n : unique fs -> all_flags sa fs v ->
  has_text fs (own_flag sa (bytes_of "option_type")) (bytes_of "disk") ->
  ~ given fs (own_flag sa (option_name n)) -> (sa = false -> ~ given fs (option_name n)) ->
  oval n (initialize_from_flags sa fs o) =
  match n with NumPorts => 3 | BlockSize => -1 | DisablePrealloc | DirTree => 1 | _ => v n end.
Proof. exact (init_disk sa fs v o n). Qed.
Print Assumptions C71_disk.
(** C71: with any other type all options have the values of their flags, except that a start
    port makes the ports static. *)
Theorem C71_flash sa fs v o t n : unique fs -> all_flags sa fs v ->
  has_text fs (own_flag sa (bytes_of "option_type")) t -> t <> bytes_of "disk" ->
  (sa = false -> ~ given fs (option_name StartPort)) ->
  (n <> StaticPorts -> oval n (initialize_from_flags sa fs o) = v n) /\
  (given fs (own_flag sa (option_name StartPort)) -> oval StaticPorts (initialize_from_flags sa fs o) = 1) /\
  (~ given fs (own_flag sa (option_name StartPort)) -> oval StaticPorts (initialize_from_flags sa fs o) = v StaticPorts).
Proof. exact (init_flash_own sa fs v o t n). Qed.
Print Assumptions C71_flash.
(** C71: options set before do not matter, nor how often this is done. *)
Theorem C71_again sa fs v o o' : unique fs -> all_flags sa fs v ->
  initialize_from_flags sa fs o = initialize_from_flags sa fs o'.
Proof. exact (init_again sa fs v o o'). Qed.
Print Assumptions C71_again.
(** C71: but a flag of the program, not of wdt, changes wdt's options: though none of wdt's
    flags is given the ports become static, and the type disk does not set their number. *)
Theorem C71_foreign_refuted :
  (exists fs v o, unique fs /\ all_flags false fs v /\ (forall n, ~ given fs (own_flag false (option_name n))) /\
    has_text fs (own_flag false (bytes_of "option_type")) (bytes_of "flash") /\
    v StaticPorts = 0 /\ oval StaticPorts (initialize_from_flags false fs o) = 1) /\
  (exists fs v o, unique fs /\ all_flags false fs v /\ (forall n, ~ given fs (own_flag false (option_name n))) /\
    has_text fs (own_flag false (bytes_of "option_type")) (bytes_of "disk") /\
    oval NumPorts (initialize_from_flags false fs o) = v NumPorts /\ v NumPorts = 8).
Proof. exact foreign. Qed.
Print Assumptions C71_foreign_refuted.
Example C71_given_ex :
  let fs := [fl "start_port" false 5000 ""; fl "num_ports" true 8 ""; fl "static_ports" true 0 "";
             fl "option_type" true 0 "flash"]%string in
  let o := initialize_from_flags true fs options_default in
  o_start_port o = 5000 /\ o_static_ports o = true /\ o_num_ports o = 8.
Proof. vm_compute. auto. Qed.
Example C71_disk_ex :
  let o := initialize_from_flags false (host_flags "disk" true) options_default in
  o_num_ports o = 3 /\ o_block_size o = -1 /\ o_start_port o = 22356.
Proof. vm_compute. auto. Qed.
Example C71_hypotheses_ex : unique (host_flags "disk" true) /\ all_flags false (host_flags "disk" true) host_values /\
  has_text (host_flags "disk" true) (own_flag false (bytes_of "option_type")) (bytes_of "disk").
Proof. exact (host_ok "disk" true). Qed.

(** ---- C72 ---- *)
(** C72: for every interleaving of signals and any number of subscribers, a subscriber is
    told so exactly if there was a signal since it last asked or was made. *)
Theorem C72_told h1 e h2 i : looks h1 e i -> ~ In (Poll i) h2 -> notices h2 < 2 ^ 64 ->
  (answer (h1 ++ e :: h2 ++ [Poll i]) = Some true <-> In Notify h2) /\
  (answer (h1 ++ e :: h2 ++ [Poll i]) = Some false <-> ~ In Notify h2).
Proof. exact (answers_small h1 e h2 i). Qed.
Print Assumptions C72_told.
Example C72_told_ex : snd (srun signals_start [Subscribe; Notify; Subscribe; Poll 0; Poll 1; Notify; Notify; Poll 1; Poll 1; Poll 0]) =
  [None; None; None; Some true; Some false; None; None; Some true; Some false; Some true].
Proof. reflexivity. Qed.
(** C72: without a bound on their number signals can be missed. *)
Theorem C72_wraps_refuted : exists h, In Notify h /\ ~ In (Poll 0) h /\ answer (Subscribe :: h ++ [Poll 0]) = Some false.
Proof. exact wraps. Qed.
Print Assumptions C72_wraps_refuted.
