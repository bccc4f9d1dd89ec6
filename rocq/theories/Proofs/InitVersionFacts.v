(** Which versions survive the initialisation. *)
From Coq Require Import Lia String.
From Verif Require Import Model.Negotiate Model.Uri.
Open Scope string_scope.
Open Scope Z_scope.

Definition request_init (r : request) : outcome (Z * Z) :=
  sender_init (r_error r) (r_version r) (negb (match r_dir r with [] => true | _ => false end))
    (match r_ports r with [] => false | _ => true end) (match r_host r with [] => false | _ => true end).
Definition agreed_version (v : Z) : Z := if v <? 10 then 0 else Z.min 32 v.

Lemma to_i32_small v : in_i32 v -> to_i32 v = v.
Proof. unfold in_i32, to_i32. intros H. rewrite Z.mod_small; lia. Qed.
Lemma negotiate_small v : in_i32 v -> negotiate_request v = if v <=? 0 then Crash else Ret (agreed_version v).
Proof. intros H. unfold negotiate_request. rewrite (to_i32_small v H). reflexivity. Qed.

Lemma sender_version code v dir ports host : in_i32 v ->
  (sender_init code v dir ports host = Crash <-> v <= 0) /\
  (0 < v -> exists c, sender_init code v dir ports host = Ret (c, agreed_version v) /\
     (c = OK <-> code = OK /\ dir = true /\ ports = true /\ host = true)).
Proof.
  intros H. unfold sender_init. rewrite (negotiate_small v H). destruct (Z.leb_spec v 0) as [L|L]; cbn [obind]; split; try (split; [intros _; lia|auto]); try lia; try (split; [discriminate|lia]).
  intros _. eexists. split; [reflexivity|].
  assert (V : (agreed_version v <? 0) = false) by (apply Z.ltb_ge; unfold agreed_version; destruct (v <? 10); lia).
  unfold validate_request. rewrite V. destruct (Z.eqb_spec code OK) as [->|N]; cbn [negb].
  - destruct dir, ports, host; cbn; split; intros X; try discriminate X; try tauto; destruct X as (_ & A & B & C); discriminate.
  - destruct (Z.eqb_spec code OK); [contradiction|]. cbn [andb]. tauto.
Qed.
Lemma receiver_version code v dir ports : in_i32 v ->
  (receiver_init code v dir ports = Crash <-> code = OK /\ dir = true /\ ports = true /\ v = 0) /\
  (forall w, receiver_init code v dir ports = Ret (OK, w) <-> code = OK /\ dir = true /\ ports = true /\ 0 < v /\ w = agreed_version v).
Proof.
  intros H. unfold receiver_init, validate_request. rewrite (negotiate_small v H).
  destruct (Z.eqb_spec code OK) as [->|N]; cbn [negb].
  - destruct dir, ports; cbn [negb orb]; destruct (Z.ltb_spec v 0); cbn; try (split; [split; [discriminate|]|intros w; split; [discriminate|]]; intros X; decompose [and] X; lia || discriminate).
    destruct (Z.leb_spec v 0); cbn.
    + split; [split; [intros _; repeat split; lia|auto]|]. intros w; split; [discriminate|]. lia.
    + split; [split; [discriminate|lia]|]. intros w; split; [intros E; injection E as <-; repeat split; lia|]. intros (_ & _ & _ & _ & ->). reflexivity.
  - destruct (Z.eqb_spec code OK); [contradiction|]. cbn. split; [split; [discriminate|tauto]|]. intros w. split; [intros E; injection E as E _; contradiction|tauto].
Qed.
Lemma init_usable code v dir ports host w : sender_init code v dir ports host = Ret (OK, w) -> w = 0 \/ 10 <= w <= 32.
Proof.
  unfold sender_init, negotiate_request. destruct (Z.leb_spec (to_i32 v) 0); [discriminate|]. cbn [obind]. intros E. injection E as _ <-.
  unfold negotiateProtocol. destruct (Z.ltb_spec (to_i32 v) 10); lia.
Qed.
Definition url_version (url : list Z) : option (Z * outcome (Z * Z)) :=
  match parseRequest url with Ret r => Some (r_error r, request_init r) | _ => None end.
Lemma url_version_ex url e x : url_version url = Some (e, x) -> exists r, parseRequest url = Ret r /\ r_error r = e /\ request_init r = x.
Proof. unfold url_version. destruct (parseRequest url) as [r| |]; try discriminate. intros E. injection E as <- <-. eauto. Qed.
Lemma url_cases :
  (exists r, parseRequest (bytes_of "wdt://h:22?num_ports=1&dir=/d&recpv=0") = Ret r /\ r_error r = OK /\ request_init r = Crash) /\
  (exists r, parseRequest (bytes_of "wdt://h:22?num_ports=1&dir=/d&recpv=4294967296") = Ret r /\ r_error r = OK /\ request_init r = Crash) /\
  (exists r, parseRequest (bytes_of "wdt://h:22?num_ports=1&dir=/d&recpv=4294967307") = Ret r /\ r_error r = OK /\ request_init r = Ret (OK, 11)).
Proof. split; [|split]; apply url_version_ex; vm_compute; reflexivity. Qed.
