(** C34, the reading side: which texts are accepted, and what they mean. *)
From Verif Require Import Spec.UriSpec Spec.UriTextSpec Proofs.UriTextFacts.
From Coq Require Import Lia String.
Open Scope Z_scope.

(** A number is accepted exactly if it is one and is in range. *)
Theorem C34_number_exact lo hi s v : parse_int lo hi s = Some v <-> int_text s v /\ lo <= v <= hi.
Proof. exact (parse_int_iff lo hi s v). Qed.
Print Assumptions C34_number_exact.

Example C34_number_ex : int_text (bytes_of " -0042 ") (-42) /\ parse_i32 (bytes_of " -0042 ") = Some (-42)
  /\ parse_i32 (bytes_of "2147483648") = None /\ parse_i32 (bytes_of "12a") = None /\ parse_i32 (bytes_of "+") = None.
Proof.
  split; [|repeat split; reflexivity]. exists [32], [45], (bytes_of "0042"), [32].
  split; [reflexivity|]. split; [constructor; [right; reflexivity|constructor]|]. split; [constructor; [right; reflexivity|constructor]|].
  split; [discriminate|]. split; [repeat (constructor; [vm_compute; split; discriminate|]); constructor|]. left. split; reflexivity.
Qed.

(** A truth value likewise. *)
Theorem C34_truth_exact s b : parse_bool s = Some b <-> bool_text s b.
Proof. exact (parse_bool_iff s b). Qed.
Print Assumptions C34_truth_exact.

Example C34_truth_ex : bool_text (bytes_of "oFF ") false /\ parse_bool (bytes_of "001") = Some true
  /\ parse_bool (bytes_of "2") = None /\ parse_bool (bytes_of "onn") = None /\ parse_bool (bytes_of "011") = None.
Proof.
  split; [|repeat split; reflexivity]. exists [], (bytes_of "oFF"), [32]. split; [reflexivity|]. split; [constructor|].
  split; [constructor; [right; reflexivity|constructor]|]. left. vm_compute. tauto.
Qed.

(** A list of ports is accepted exactly if each of its pieces is a number, and then gives
    these numbers in order. *)
Theorem C34_ports_exact s l : parse_ports (S (List.length s)) OK s = (OK, l) <-> ports_text s l.
Proof. exact (ports_exact s l). Qed.
Print Assumptions C34_ports_exact.

Example C34_ports_ex : ports_text (bytes_of ",7,,-1,") [7; -1]
  /\ fst (parse_ports 9 OK (bytes_of "7,x,8")) = URI_PARSE_ERROR.
Proof. split; [apply C34_ports_exact; reflexivity|reflexivity]. Qed.

(** A URL is accepted exactly if it can be taken apart and every parameter it has is well
    formed; the request is the one the parameters mean. *)
Theorem C34_accepts_exactly url r :
  (parseRequest url = Ret r /\ r_error r = OK) <-> exists u, process url = (OK, u) /\ means u r.
Proof. exact (request_iff url r). Qed.
Print Assumptions C34_accepts_exactly.

Example C34_accepts_ex : exists r, parseRequest (bytes_of "wdt://h:22?num_ports=2&tls=oFF&recpv=+7&dr=1") = Ret r
  /\ r_error r = OK /\ r_ports r = [22; 23] /\ r_tls r = false /\ r_version r = 7 /\ r_resume r = true.
Proof. eexists. vm_compute. repeat split. Qed.

(** Nothing says that there is a port, or that it is one: a URL is accepted that names
    none, and one that names a port no machine has. *)
Theorem C34_no_ports_refuted : exists url r, parseRequest url = Ret r /\ r_error r = OK /\ r_ports r = [].
Proof. exact no_ports. Qed.
Print Assumptions C34_no_ports_refuted.

Theorem C34_port_range_refuted : exists url r, parseRequest url = Ret r /\ r_error r = OK /\ r_ports r = [65536; -1].
Proof. exact port_range. Qed.
Print Assumptions C34_port_range_refuted.
