(** C33-C36: URLs, transfer requests and the text form of keys. *)
From Verif Require Import Spec.UriSpec Proofs.UriFacts Proofs.UriTextFacts.
From Coq Require Import Lia String.
Open Scope Z_scope.

(** ** C33 *)

(** Any byte string escapes to text without separators. *)
Theorem C33_escape_safe s : bytes_ok s -> forall c, In c (escape s) -> ~ separator c.
Proof. exact (escape_no_separator s). Qed.
Print Assumptions C33_escape_safe.

(** ... and unescapes back to itself. *)
Theorem C33_round_trip s : bytes_ok s -> unescape (escape s) = (true, s).
Proof. exact (unescape_escape s). Qed.
Print Assumptions C33_round_trip.

(** unescape accepts exactly the well-formed texts, and gives what they mean. *)
Theorem C33_unescape_exact t s : unescape t = (true, s) <-> denotes t s.
Proof. exact (unescape_denotes t s). Qed.
Print Assumptions C33_unescape_exact.

Theorem C33_malformed_rejected t : (forall s, ~ denotes t s) -> fst (unescape t) = false.
Proof. exact (unescape_rejects t). Qed.
Print Assumptions C33_malformed_rejected.

Example C33_ex : escape [97; 38; 0; 255] = bytes_of "a%26%00%ff" /\
  unescape (bytes_of "a%26%00%ff") = (true, [97; 38; 0; 255]) /\
  fst (unescape (bytes_of "a%2")) = false /\ fst (unescape (bytes_of "%2G")) = false /\
  bytes_ok [97; 38; 0; 255].
Proof. repeat split; try (vm_compute; reflexivity). repeat constructor; unfold is_byte; lia. Qed.

Example C33_malformed_ex : forall s, ~ denotes (bytes_of "a%2") s.
Proof. intros s H. apply C33_unescape_exact in H. vm_compute in H. discriminate. Qed.

(** ** C34 *)

(** The URL of a valid request parses back into the same request (the URL does
    not carry the directory). *)
Theorem C34_url_round_trip names hash r : valid_request r ->
  parseRequest (genWdtUrlWithSecret names hash r) = Ret (without_dir r).
Proof. exact (url_roundtrip names hash r). Qed.
Print Assumptions C34_url_round_trip.

Example C34_ex : valid_request (exreq "::1" [22; 9; 0] {| ep_type := ENC_AES128_GCM; ep_data := [1; 255] |}) /\
  genWdtUrlWithSecret (fun _ => []) (fun _ => 0)
    (exreq "::1" [22; 9; 0] {| ep_type := ENC_AES128_GCM; ep_data := [1; 255] |}) =
  bytes_of "wdt://[::1]?Enc=2:01ff&dr=1&dstid=a%20b&id=%00%26%3d%25%c8&iv_change_int=4096&ports=22,9,0&recpv=-3&tls=1".
Proof.
  split; [|vm_compute; reflexivity].
  assert (B : forall l, forallb is_byteb l = true -> bytes_ok l).
  { intros l H. apply Forall_forall. intros x Hx. rewrite forallb_forall in H. apply H in Hx.
    unfold is_byteb, is_byte in *. lia. }
  split; [reflexivity|]. split; [|split].
  - split; [discriminate|]. split; [vm_compute; intuition discriminate|].
    split; [intros _; vm_compute; intuition discriminate|]. intros H. exfalso. apply H. vm_compute. left; reflexivity.
  - split; [discriminate|]. split; [repeat constructor; vm_compute; congruence|]. split; [reflexivity|].
    intros p r [= <- <-] C. cbn in C. lia.
  - split; [right; split; [right; reflexivity|split; [discriminate|apply B; reflexivity]]|].
    split; [split; vm_compute; congruence|]. split; [split; vm_compute; congruence|].
    split; [apply B; reflexivity|split; apply B; reflexivity].
Qed.

(** Outside [valid_request]: a single port 0 (or consecutive ports starting at or
    below 0), and an encryption type set with an empty key, do not survive. *)
Theorem C34_port_zero_refuted : exists r, r_ports r = [0] /\ r_error r = OK /\
  forall names hash, exists r', parseRequest (genWdtUrlWithSecret names hash r) = Ret r' /\ r_error r' = INVALID_REQUEST.
Proof.
  exists (exreq "host" [0] enc_none). split; [reflexivity|]. split; [reflexivity|].
  intros names hash. eexists. vm_compute. split; reflexivity.
Qed.
Print Assumptions C34_port_zero_refuted.

Theorem C34_empty_key_refuted : exists r, enc_isSet (r_enc r) = true /\ r_error r = OK /\
  forall names hash, exists r', parseRequest (genWdtUrlWithSecret names hash r) = Ret r' /\
    r_error r' = ERROR /\ enc_isSet (r_enc r') = false.
Proof.
  exists (exreq "host" [1; 5] {| ep_type := ENC_AES128_GCM; ep_data := [] |}). split; [reflexivity|]. split; [reflexivity|].
  intros names hash. eexists. vm_compute. split; [reflexivity|split; reflexivity].
Qed.
Print Assumptions C34_empty_key_refuted.

(** A host name holding the delimiters is cut or misread. *)
Theorem C34_host_refuted : exists r, r_error r = OK /\
  forall names hash, exists r', parseRequest (genWdtUrlWithSecret names hash r) = Ret r' /\
    r_error r' = OK /\ r_host r' <> r_host r.
Proof.
  exists (exreq "a?x=1&b" [1; 5] enc_none). split; [reflexivity|].
  intros names hash. eexists. vm_compute. split; [reflexivity|split; [reflexivity|discriminate]].
Qed.
Print Assumptions C34_host_refuted.

(** ** C35 *)

(** The loggable text is a function of the hash value of the key (and of the
    rest of the request, including the type of the key). *)
Theorem C35_log_only_hash names r :
  exists g, forall hash k, getLogSafeString names hash (with_key r k) = g (hash k).
Proof. exact (log_only_hash names r). Qed.
Print Assumptions C35_log_only_hash.

Theorem C35_equal_hashes_equal_text names hash r k1 k2 : hash k1 = hash k2 ->
  getLogSafeString names hash (with_key r k1) = getLogSafeString names hash (with_key r k2).
Proof. exact (log_equal names hash r k1 k2). Qed.
Print Assumptions C35_equal_hashes_equal_text.

(** Two keys with the same length are indistinguishable in the log when only
    the length is hashed, but not in the URL. *)
Example C35_ex :
  let r := exreq "h" [1; 5] {| ep_type := ENC_AES128_GCM; ep_data := [7; 7] |} in
  let hash := fun k => zlen k in
  getLogSafeString (fun _ => []) hash (with_key r [1; 2]) = getLogSafeString (fun _ => []) hash r /\
  genWdtUrlWithSecret (fun _ => []) hash (with_key r [1; 2]) <> genWdtUrlWithSecret (fun _ => []) hash r /\
  getLogSafeString (fun _ => []) hash r =
  bytes_of "wdt://h?Enc=2:...2...&dir=%2ftmp&dr=1&dstid=a%20b&id=%00%26%3d%25%c8&iv_change_int=4096&ports=1,5&recpv=-3&tls=1".
Proof. vm_compute. split; [reflexivity|split; [discriminate|reflexivity]]. Qed.

(** ** C36 *)

Theorem C36_round_trip e : (ep_type e = ENC_AES128_CTR \/ ep_type e = ENC_AES128_GCM) ->
  ep_data e <> [] -> bytes_ok (ep_data e) -> unserialize (enc_getUrlSafeString e) = Ret (OK, e).
Proof.
  exact (fun H1 H2 H3 => eq_trans (unserialize_ok _ _ _ (url_safe_key_text e H1 H2 H3))
    (match e as e0 return Ret (OK, {| ep_type := ep_type e0; ep_data := ep_data e0 |}) = Ret (OK, e0)
     with Build_encparams _ _ => eq_refl end)).
Qed.
Print Assumptions C36_round_trip.

(** Text is accepted exactly when it is the text of a key, with that key. *)
Theorem C36_accepts_exactly t e : unserialize t = Ret (OK, e) <-> key_text t (ep_type e) (ep_data e).
Proof.
  exact (conj (unserialize_inv t e) (fun H => eq_trans (unserialize_ok t _ _ H)
    (match e as e0 return Ret (OK, {| ep_type := ep_type e0; ep_data := ep_data e0 |}) = Ret (OK, e0)
     with Build_encparams _ _ => eq_refl end))).
Qed.
Print Assumptions C36_accepts_exactly.

(** Rejected text leaves the parameters unset. *)
Theorem C36_rejected_unset t c e : unserialize t = Ret (c, e) -> c <> OK -> enc_isSet e = false /\ c = ERROR.
Proof. exact (unserialize_rejects t c e). Qed.
Print Assumptions C36_rejected_unset.

(** At most eight digits before the colon: no undefined behaviour. *)
Theorem C36_defined t : (find_if (Z.eqb 58) t <= 8)%nat -> unserialize t <> Undef.
Proof. exact (unserialize_no_undef t). Qed.
Print Assumptions C36_defined.

Example C36_ex :
  enc_getUrlSafeString {| ep_type := 2; ep_data := [0; 255; 58] |} = bytes_of "2:00ff3a" /\
  unserialize (bytes_of "2:00ff3a") = Ret (OK, {| ep_type := 2; ep_data := [0; 255; 58] |}) /\
  unserialize (bytes_of "0002:ab") = Ret (OK, {| ep_type := 2; ep_data := [171] |}) /\
  (exists e, unserialize (bytes_of "2:abc") = Ret (ERROR, e)) /\
  (exists e, unserialize (bytes_of "2ab") = Ret (ERROR, e)) /\
  (exists e, unserialize (bytes_of "2:ag") = Ret (ERROR, e)) /\
  (exists e, unserialize (bytes_of "3:ab") = Ret (ERROR, e)).
Proof. repeat split; try (eexists; vm_compute; reflexivity); vm_compute; reflexivity. Qed.

(** Rejected text can leave key bytes behind, and a long type makes the shift
    undefined. *)
Theorem C36_no_key_left_refuted : exists t e, unserialize t = Ret (ERROR, e) /\ ep_data e <> [].
Proof. exists (bytes_of "2:ab_"). eexists. vm_compute. split; [reflexivity|discriminate]. Qed.
Print Assumptions C36_no_key_left_refuted.

Theorem C36_defined_refuted : exists t, unserialize t = Undef.
Proof. exists (bytes_of "100000002:ab"). vm_compute. reflexivity. Qed.
Print Assumptions C36_defined_refuted.
