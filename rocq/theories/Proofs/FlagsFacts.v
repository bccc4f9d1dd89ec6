From Coq Require Import ZArith List Bool Lia String.
From Verif Require Import Spec.FlagsSpec Proofs.UriFacts Proofs.CmdLineFacts.
Import ListNotations.
Open Scope list_scope.
Open Scope Z_scope.

Lemma str_eqb_iff a b : str_eqb a b = true <-> a = b.
Proof.
  revert b. induction a as [|x a IH]; intros [|y b]; cbn; split; try discriminate; try reflexivity.
  - rewrite andb_true_iff, Z.eqb_eq, IH. intros [-> ->]. reflexivity.
  - intros [= -> ->]. rewrite andb_true_iff, Z.eqb_eq, IH. auto.
Qed.
Lemma own_flag_name sa n : flag_name sa n = own_flag sa n.
Proof. destruct sa; reflexivity. Qed.
Lemma option_of_own sa n : option_of_flag sa (own_flag sa n) = n.
Proof. destruct sa; reflexivity. Qed.
Lemma prefix_back name : str_eqb (firstn 4 name) flags_prefix = true -> name = flags_prefix ++ skipn 4 name.
Proof. rewrite str_eqb_iff. intros E. rewrite <- E. now rewrite firstn_skipn. Qed.
Lemma option_name_bare n : str_eqb (firstn 4 (option_name n)) flags_prefix = false.
Proof. destruct n; reflexivity. Qed.
Lemma option_of_flag_iff sa name n : option_of_flag sa name = option_name n <->
  name = own_flag sa (option_name n) \/ sa = false /\ name = option_name n.
Proof.
  destruct sa.
  - cbn. split; [auto|]. intros [E|[E _]]; [auto|discriminate].
  - split.
    + unfold option_of_flag. change (Datatypes.length flags_prefix) with 4%nat.
      destruct (str_eqb (firstn 4 name) flags_prefix) eqn:P.
      * intros E. left. rewrite (prefix_back _ P), E. reflexivity.
      * intros E. auto.
    + intros [->|[_ ->]].
      * apply option_of_own.
      * unfold option_of_flag. change (Datatypes.length flags_prefix) with 4%nat. now rewrite option_name_bare.
Qed.
Lemma specified_iff sa fs n : specified sa fs n = true <->
  given fs (own_flag sa (option_name n)) \/ sa = false /\ given fs (option_name n).
Proof.
  unfold specified, user_specified. rewrite existsb_exists. split.
  - intros [x [I E]]. apply str_eqb_iff in E. subst x. apply in_map_iff in I. destruct I as [f [E I]].
    apply filter_In in I. destruct I as [I D]. apply option_of_flag_iff in E.
    assert (fl_is_default f = false) by (destruct (fl_is_default f); [discriminate|reflexivity]).
    destruct E as [E|[S E]]; [left|right; split; [exact S|]]; exists f; auto.
  - intros G. exists (option_name n). split; [|now apply str_eqb_iff].
    assert (X : exists f, In f fs /\ fl_is_default f = false /\
      (fl_name f = own_flag sa (option_name n) \/ sa = false /\ fl_name f = option_name n)).
    { destruct G as [[f [A [B C]]]|[S [f [A [B C]]]]]; exists f; auto. }
    destruct X as [f [A [B C]]]. apply in_map_iff. exists f. split.
    + now apply option_of_flag_iff.
    + apply filter_In. rewrite B. auto.
Qed.

Lemma flag_of_in sa fs n f : unique fs -> In f fs -> fl_name f = own_flag sa n -> flag_of sa fs n = Some f.
Proof.
  unfold flag_of, unique. intros U I E. rewrite (own_flag_name sa n). revert U I. induction fs as [|g fs IH]; [contradiction|]. intros U I.
  cbn [map] in U. inversion_clear U. cbn [find]. destruct (str_eqb (own_flag sa n) (fl_name g)) eqn:Q.
  - apply str_eqb_iff in Q. destruct I as [->|I]; [reflexivity|]. exfalso. apply H. rewrite <- Q, <- E.
    now apply in_map.
  - destruct I as [->|I]; [|auto]. rewrite E in Q. assert (str_eqb (own_flag sa n) (own_flag sa n) = true) by now apply str_eqb_iff.
    congruence.
Qed.
Lemma number_of_eq sa fs v n old : unique fs -> all_flags sa fs v -> number_of sa fs n old = v n.
Proof.
  intros U A. destruct (A n) as [[f [I [E <-]]] _]. unfold number_of. now rewrite (flag_of_in _ _ _ _ U I E).
Qed.
Lemma assign_value sa fs v o n : unique fs -> all_flags sa fs v -> oval n (assign_flags sa fs o) = v n.
Proof.
  intros U A. destruct n; unfold assign_flags; cbn [oval o_num_ports o_block_size o_start_port o_disable_preallocation
    o_resume_using_dir_tree o_static_ports o_enable_download_resumption o_skip_writes];
    rewrite (number_of_eq _ _ v) by auto; try reflexivity;
    match goal with |- Z.b2z (negb (v ?n =? 0)) = _ => destruct (A n) as [_ [X|X]]; [reflexivity| |]; rewrite X; reflexivity end.
Qed.
Lemma type_value sa fs t : unique fs -> has_text fs (own_flag sa (bytes_of "option_type")) t ->
  match flag_of sa fs (bytes_of "option_type") with Some f => type_of (fl_text f) | None => Flash end = type_of t.
Proof. intros U [f [I [E <-]]]. now rewrite (flag_of_in _ _ _ _ U I E). Qed.

Lemma own_kept sa fs v o n : unique fs -> all_flags sa fs v ->
  given fs (own_flag sa (option_name n)) -> n <> StaticPorts -> oval n (initialize_from_flags sa fs o) = v n.
Proof.
  intros U A G N. unfold initialize_from_flags. rewrite options_kept; auto.
  - now apply assign_value.
  - apply specified_iff. auto.
Qed.
Lemma init_disk sa fs v o n : unique fs -> all_flags sa fs v ->
  has_text fs (own_flag sa (bytes_of "option_type")) (bytes_of "disk") ->
  ~ given fs (own_flag sa (option_name n)) -> (sa = false -> ~ given fs (option_name n)) ->
  oval n (initialize_from_flags sa fs o) =
  match n with NumPorts => 3 | BlockSize => -1 | DisablePrealloc | DirTree => 1 | _ => v n end.
Proof.
  intros U A T G F. unfold initialize_from_flags. rewrite (type_value _ _ _ U T).
  change (type_of (bytes_of "disk")) with Disk. rewrite options_disk.
  - destruct n; try reflexivity; now apply assign_value.
  - destruct (specified sa fs n) eqn:S; [|reflexivity]. apply specified_iff in S. destruct S as [S|[S1 S2]]; [contradiction|].
    exfalso. exact (F S1 S2).
Qed.
Lemma type_not_disk t : t <> bytes_of "disk" -> type_of t <> Disk.
Proof.
  intros N. unfold type_of. destruct (str_eqb t (bytes_of "disk")) eqn:E.
  - apply str_eqb_iff in E. contradiction.
  - destruct (str_eqb t (bytes_of "flash")); intros X; discriminate X.
Qed.
Lemma init_flash sa fs v o t n : unique fs -> all_flags sa fs v ->
  has_text fs (own_flag sa (bytes_of "option_type")) t -> t <> bytes_of "disk" ->
  oval n (initialize_from_flags sa fs o) =
  match n with StaticPorts => if specified sa fs StartPort then 1 else v StaticPorts | _ => v n end.
Proof.
  intros U A T N. unfold initialize_from_flags. rewrite (type_value _ _ _ U T).
  rewrite options_flash by now apply type_not_disk.
  destruct n; try now apply assign_value. destruct (specified _ _ _); [reflexivity|]. now apply assign_value.
Qed.
Lemma init_flash_own sa fs v o t n : unique fs -> all_flags sa fs v ->
  has_text fs (own_flag sa (bytes_of "option_type")) t -> t <> bytes_of "disk" ->
  (sa = false -> ~ given fs (option_name StartPort)) ->
  (n <> StaticPorts -> oval n (initialize_from_flags sa fs o) = v n) /\
  (given fs (own_flag sa (option_name StartPort)) -> oval StaticPorts (initialize_from_flags sa fs o) = 1) /\
  (~ given fs (own_flag sa (option_name StartPort)) -> oval StaticPorts (initialize_from_flags sa fs o) = v StaticPorts).
Proof.
  intros U A T N F. split; [|split].
  - intros M. rewrite (init_flash _ _ v _ t) by auto. destruct n; congruence || reflexivity.
  - intros G. rewrite (init_flash _ _ v _ t) by auto. assert (S : specified sa fs StartPort = true) by (apply specified_iff; auto).
    now rewrite S.
  - intros G. rewrite (init_flash _ _ v _ t) by auto. destruct (specified sa fs StartPort) eqn:S; [|reflexivity].
    apply specified_iff in S. destruct S as [S|[S1 S2]]; [contradiction|]. exfalso. exact (F S1 S2).
Qed.
Lemma init_again sa fs v o o' : unique fs -> all_flags sa fs v ->
  initialize_from_flags sa fs o = initialize_from_flags sa fs o'.
Proof.
  intros U A. unfold initialize_from_flags. f_equal. unfold assign_flags. f_equal; rewrite !(number_of_eq _ _ v) by auto; reflexivity.
Qed.

(** ** A program with its own flags *)
Definition fl (name : string) (d : bool) (v : Z) (t : string) : flag :=
  {| fl_name := bytes_of name; fl_is_default := d; fl_number := v; fl_text := bytes_of t |}.
Definition host_flags (ty : string) (start : bool) : list flag :=
  [fl "wdt_num_ports" true 8 ""; fl "wdt_block_size_mbytes" true 16 ""; fl "wdt_disable_preallocation" true 0 "";
   fl "wdt_resume_using_dir_tree" true 0 ""; fl "wdt_static_ports" true 0 ""; fl "wdt_start_port" true 22356 "";
   fl "wdt_enable_download_resumption" true 0 ""; fl "wdt_skip_writes" true 0 ""; fl "wdt_option_type" true 0 ty;
   fl "start_port" start 80 ""; fl "num_ports" start 1 ""]%string.
Definition host_values (n : oname) : Z :=
  match n with NumPorts => 8 | BlockSize => 16 | StartPort => 22356 | _ => 0 end.
Lemma host_ok ty s : unique (host_flags ty s) /\ all_flags false (host_flags ty s) host_values /\
  has_text (host_flags ty s) (own_flag false (bytes_of "option_type")) (bytes_of ty).
Proof.
  split; [|split].
  - unfold unique, host_flags, fl. cbn [map fl_name]. repeat (constructor; [cbn; intuition discriminate|]). constructor.
  - intros n. split.
    + exists (nth (match n with NumPorts => 0 | BlockSize => 1 | DisablePrealloc => 2 | DirTree => 3 | StaticPorts => 4
        | StartPort => 5 | Resumption => 6 | SkipWrites => 7 end)%nat (host_flags ty s) (fl "" true 0 "")).
      split; [apply nth_In; cbn; destruct n; lia|]. destruct n; split; reflexivity.
    + destruct n; cbn; auto; discriminate.
  - exists (nth 8 (host_flags ty s) (fl "" true 0 "")). split; [apply nth_In; cbn; lia|]. split; reflexivity.
Qed.
Lemma host_not_given ty s n : ~ given (host_flags ty s) (own_flag false (option_name n)).
Proof.
  intros [f [I [D E]]]. cbn [host_flags In] in I.
  repeat (destruct I as [<-|I]; [first [discriminate D | destruct n; discriminate E]|]). contradiction.
Qed.
Lemma foreign : 
  (exists fs v o, unique fs /\ all_flags false fs v /\ (forall n, ~ given fs (own_flag false (option_name n))) /\
    has_text fs (own_flag false (bytes_of "option_type")) (bytes_of "flash") /\
    v StaticPorts = 0 /\ oval StaticPorts (initialize_from_flags false fs o) = 1) /\
  (exists fs v o, unique fs /\ all_flags false fs v /\ (forall n, ~ given fs (own_flag false (option_name n))) /\
    has_text fs (own_flag false (bytes_of "option_type")) (bytes_of "disk") /\
    oval NumPorts (initialize_from_flags false fs o) = v NumPorts /\ v NumPorts = 8).
Proof.
  split.
  - exists (host_flags "flash" false), host_values, options_default.
    destruct (host_ok "flash" false) as [A [B C]]. split; [exact A|]. split; [exact B|].
    split; [apply host_not_given|]. split; [exact C|]. split; reflexivity.
  - exists (host_flags "disk" false), host_values, options_default.
    destruct (host_ok "disk" false) as [A [B C]]. split; [exact A|]. split; [exact B|].
    split; [apply host_not_given|]. split; [exact C|]. split; reflexivity.
Qed.

(** ** The signal *)
Lemma notices_cons e l : notices (e :: l) = match e with Notify => 1 | _ => 0 end + notices l.
Proof. unfold notices. destruct e; cbn [filter]; cbn [Datatypes.length]; lia. Qed.
Lemma srun_app s l r : srun s (l ++ r) =
  let '(s1, a) := srun s l in let '(s2, b) := srun s1 r in (s2, a ++ b).
Proof.
  revert s. induction l as [|e l IH]; intros s; cbn [app srun].
  - destruct (srun s r); reflexivity.
  - destruct (sstep s e) as [s1 b]. rewrite IH. destruct (srun s1 l) as [s2 bs]. destruct (srun s2 r). reflexivity.
Qed.
Definition epoch_ok (s : signals) : Prop := 0 <= sg_epoch s < 2 ^ 64.
Lemma sstep_epoch s e : epoch_ok s -> epoch_ok (fst (sstep s e)) /\
  sg_epoch (fst (sstep s e)) = (sg_epoch s + match e with Notify => 1 | _ => 0 end) mod 2 ^ 64.
Proof.
  unfold epoch_ok. intros E. destruct e as [| |i]; cbn [sstep fst sg_epoch].
  - split; [apply Z.mod_pos_bound; lia|reflexivity].
  - rewrite Z.add_0_r, Z.mod_small; auto.
  - destruct (nth_error (sg_seen s) i) as [x|]; [destruct (x =? sg_epoch s)|]; cbn [fst sg_epoch];
      rewrite Z.add_0_r, Z.mod_small; auto.
Qed.
Lemma srun_epoch l : forall s, epoch_ok s -> epoch_ok (fst (srun s l)) /\
  sg_epoch (fst (srun s l)) = (sg_epoch s + notices l) mod 2 ^ 64.
Proof.
  induction l as [|e l IH]; intros s E; cbn [srun].
  - cbn [fst]. change (notices []) with 0. rewrite Z.add_0_r, Z.mod_small; auto.
  - destruct (sstep_epoch s e E) as [E1 Q1]. destruct (sstep s e) as [s1 b]. cbn [fst] in *.
    destruct (IH s1 E1) as [E2 Q2]. destruct (srun s1 l) as [s2 bs]. cbn [fst] in *. split; [exact E2|].
    rewrite Q2, Q1, notices_cons, Zplus_mod_idemp_l. f_equal. lia.
Qed.
Lemma sstep_seen s e : (Datatypes.length (sg_seen (fst (sstep s e))) = Datatypes.length (sg_seen s) + match e with Subscribe => 1 | _ => 0 end)%nat.
Proof.
  destruct e as [| |i]; cbn [sstep fst sg_seen].
  - lia.
  - rewrite app_length. cbn. lia.
  - destruct (nth_error (sg_seen s) i) as [x|] eqn:N; [destruct (x =? sg_epoch s)|]; cbn [fst sg_seen]; try lia.
    assert (L : (i < Datatypes.length (sg_seen s))%nat) by (apply nth_error_Some; congruence).
    rewrite app_length, firstn_length. cbn [Datatypes.length]. rewrite skipn_length. lia.
Qed.
Lemma subscribers_cons e l : subscribers (e :: l) = (match e with Subscribe => 1 | _ => 0 end + subscribers l)%nat.
Proof. unfold subscribers. destruct e; reflexivity. Qed.
Lemma srun_seen l : forall s, (Datatypes.length (sg_seen (fst (srun s l))) = Datatypes.length (sg_seen s) + subscribers l)%nat.
Proof.
  induction l as [|e l IH]; intros s; cbn [srun].
  - cbn. lia.
  - pose proof (sstep_seen s e) as L. destruct (sstep s e) as [s1 b]. specialize (IH s1). destruct (srun s1 l) as [s2 bs].
    cbn [fst] in *. rewrite subscribers_cons. lia.
Qed.
Lemma sstep_other s e i x : nth_error (sg_seen s) i = Some x -> e <> Poll i -> nth_error (sg_seen (fst (sstep s e))) i = Some x.
Proof.
  intros N E. assert (L : (i < Datatypes.length (sg_seen s))%nat) by (apply nth_error_Some; congruence).
  destruct e as [| |j]; cbn [sstep fst sg_seen].
  - exact N.
  - rewrite nth_error_app1; auto.
  - destruct (nth_error (sg_seen s) j) as [y|] eqn:M; [destruct (y =? sg_epoch s)|]; cbn [fst sg_seen]; auto.
    assert (Lj : (j < Datatypes.length (sg_seen s))%nat) by (apply nth_error_Some; congruence).
    assert (i <> j) by congruence. clear M E.
    revert i j N L Lj H. generalize (sg_epoch s). induction (sg_seen s) as [|a l IH]; intros z [|i] [|j] N L Lj H; cbn in *; try lia; auto.
    apply IH; auto; lia.
Qed.
Lemma srun_other l : forall s i x, nth_error (sg_seen s) i = Some x -> ~ In (Poll i) l -> nth_error (sg_seen (fst (srun s l))) i = Some x.
Proof.
  induction l as [|e l IH]; intros s i x N NI; cbn [srun]; [exact N|].
  assert (E : e <> Poll i) by (intros ->; apply NI; left; reflexivity).
  pose proof (sstep_other s e i x N E) as N1. destruct (sstep s e) as [s1 b]. cbn [fst] in N1.
  assert (NI' : ~ In (Poll i) l) by (intros J; apply NI; right; exact J).
  specialize (IH s1 i x N1 NI'). destruct (srun s1 l). exact IH.
Qed.
Lemma sstep_looks h e i : looks h e i ->
  let s := fst (srun signals_start h) in
  nth_error (sg_seen (fst (sstep s e))) i = Some (sg_epoch (fst (sstep s e))).
Proof.
  cbn zeta. pose proof (srun_seen h signals_start) as L. cbn [signals_start sg_seen Datatypes.length plus] in L.
  fold signals_start in L. set (s := fst (srun signals_start h)) in *.
  intros [[-> Q]|[-> ->]].
  - cbn [sstep]. destruct (nth_error (sg_seen s) i) as [x|] eqn:N.
    + destruct (Z.eqb_spec x (sg_epoch s)); cbn [fst sg_seen sg_epoch]; [congruence|].
      assert (Li : (i < Datatypes.length (sg_seen s))%nat) by (apply nth_error_Some; congruence).
      rewrite nth_error_app2 by (rewrite firstn_length; lia). rewrite firstn_length.
      replace (i - Nat.min i (Datatypes.length (sg_seen s)))%nat with 0%nat by lia. reflexivity.
    + apply nth_error_None in N. lia.
  - cbn [sstep fst sg_seen sg_epoch]. rewrite nth_error_app2 by lia.
    replace (subscribers h - Datatypes.length (sg_seen s))%nat with 0%nat by lia. reflexivity.
Qed.
Lemma start_ok : epoch_ok signals_start.
Proof. unfold epoch_ok. cbn. lia. Qed.
Lemma answers h1 e h2 i : looks h1 e i -> ~ In (Poll i) h2 ->
  answer (h1 ++ e :: h2 ++ [Poll i]) = Some (negb (notices h2 mod 2 ^ 64 =? 0)).
Proof.
  intros K NI. unfold answer. replace (h1 ++ e :: h2 ++ [Poll i]) with ((h1 ++ [e] ++ h2) ++ [Poll i]) by (rewrite <- !app_assoc; reflexivity).
  rewrite srun_app.
  assert (Q : exists x, nth_error (sg_seen (fst (srun signals_start (h1 ++ [e] ++ h2)))) i = Some x /\ 0 <= x < 2 ^ 64 /\
    sg_epoch (fst (srun signals_start (h1 ++ [e] ++ h2))) = (x + notices h2) mod 2 ^ 64).
  { pose proof (sstep_looks h1 e i K) as S1. cbn zeta in S1.
    destruct (srun_epoch h1 signals_start start_ok) as [E1 _].
    rewrite srun_app. destruct (srun signals_start h1) as [s1 b1]. cbn [fst] in *.
    cbn [app srun]. destruct (sstep_epoch s1 e E1) as [E2 _]. destruct (sstep s1 e) as [s2 b2]. cbn [fst] in *.
    destruct (srun_epoch h2 s2 E2) as [_ E4]. pose proof (srun_other h2 s2 i _ S1 NI) as N.
    destruct (srun s2 h2) as [s3 b3]. cbn [fst] in *. exists (sg_epoch s2). auto. }
  destruct (srun signals_start (h1 ++ [e] ++ h2)) as [s a]. cbn [fst] in Q. destruct Q as [x [N [B E]]].
  cbn [srun sstep]. rewrite N, E.
  assert (X : (x =? (x + notices h2) mod 2 ^ 64) = (notices h2 mod 2 ^ 64 =? 0)).
  { pose proof (Z.mod_pos_bound (notices h2) (2 ^ 64) ltac:(lia)).
    rewrite <- Zplus_mod_idemp_r.
    destruct (Z.eqb_spec (notices h2 mod 2 ^ 64) 0) as [->|NZ].
    - rewrite Z.add_0_r, Z.mod_small by lia. apply Z.eqb_refl.
    - apply Z.eqb_neq. intros Y. destruct (Z_lt_ge_dec (x + notices h2 mod 2 ^ 64) (2 ^ 64)).
      + rewrite Z.mod_small in Y by lia. lia.
      + replace (x + notices h2 mod 2 ^ 64) with ((x + notices h2 mod 2 ^ 64 - 2 ^ 64) + 1 * 2 ^ 64) in Y by lia.
        rewrite Z_mod_plus_full, Z.mod_small in Y by lia. lia. }
  rewrite X. destruct (notices h2 mod 2 ^ 64 =? 0); cbn [snd negb]; apply last_last.
Qed.
Lemma answers_small h1 e h2 i : looks h1 e i -> ~ In (Poll i) h2 -> notices h2 < 2 ^ 64 ->
  (answer (h1 ++ e :: h2 ++ [Poll i]) = Some true <-> In Notify h2) /\
  (answer (h1 ++ e :: h2 ++ [Poll i]) = Some false <-> ~ In Notify h2).
Proof.
  intros K NI B. rewrite (answers h1 e h2 i K NI).
  assert (P : 0 <= notices h2) by (unfold notices; lia). rewrite Z.mod_small by lia.
  assert (Q : notices h2 = 0 <-> ~ In Notify h2).
  { clear. induction h2 as [|e l IH]; [cbn; tauto|]. rewrite notices_cons.
    assert (0 <= notices l) by (unfold notices; lia). cbn [In]. destruct e; [split; [lia|intros X; exfalso; auto]|..].
    - rewrite Z.add_0_l, IH. intuition discriminate.
    - rewrite Z.add_0_l, IH. intuition discriminate. }
  assert (D : In Notify h2 \/ ~ In Notify h2) by (destruct (Z.eq_dec (notices h2) 0) as [X|X]; [right; tauto|left; destruct (in_dec (fun a b : sev => ltac:(decide equality; apply Nat.eq_dec) : {a = b} + {a <> b}) Notify h2); tauto]).
  destruct (Z.eqb_spec (notices h2) 0) as [X|X]; cbn [negb]; split; split; intros Y; try discriminate; try reflexivity; tauto.
Qed.
Lemma notices_repeat n : notices (repeat Notify n) = Z.of_nat n.
Proof. induction n as [|n IH]; [reflexivity|]. cbn [repeat]. rewrite notices_cons, IH. lia. Qed.
Lemma wraps_at n : Z.of_nat n mod 2 ^ 64 = 0 -> answer ([] ++ Subscribe :: repeat Notify n ++ [Poll 0]) = Some false.
Proof.
  intros E. rewrite answers.
  - rewrite notices_repeat, E. reflexivity.
  - right. split; reflexivity.
  - intros I. apply repeat_spec in I. discriminate.
Qed.
Lemma repeat_has n : (0 < n)%nat -> In Notify (repeat Notify n).
Proof. destruct n; [lia|]. left. reflexivity. Qed.
Lemma wraps : exists h, In Notify h /\ ~ In (Poll 0) h /\ answer (Subscribe :: h ++ [Poll 0]) = Some false.
Proof.
  assert (X : exists n, (0 < n)%nat /\ Z.of_nat n mod 2 ^ 64 = 0).
  { exists (Z.to_nat (2 ^ 64)). rewrite Z2Nat.id by lia. split; [|reflexivity]. apply (Z2Nat.inj_lt 0); lia. }
  destruct X as [n [P E]]. exists (repeat Notify n). split; [now apply repeat_has|]. split.
  - intros I. apply repeat_spec in I. discriminate.
  - exact (wraps_at n E).
Qed.
