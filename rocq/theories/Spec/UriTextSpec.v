(** What numbers, truth values and lists of ports look like in a URL, and which request
    the parameters of a URL mean. *)
From Verif Require Import Spec.UriSpec.
From Coq Require Import String.
Open Scope Z_scope.

Definition space (c : Z) : Prop := 9 <= c <= 13 \/ c = 32.
Definition digit (c : Z) : Prop := 48 <= c <= 57.
Definition decimal (ds : list Z) : Z := fold_left (fun n c => n * 10 + (c - 48)) ds 0.

(** A decimal number, perhaps with a sign, perhaps between spaces. *)
Definition int_text (s : list Z) (v : Z) : Prop :=
  exists pre sign ds post, s = pre ++ sign ++ ds ++ post /\ Forall space pre /\ Forall space post
    /\ ds <> [] /\ Forall digit ds
    /\ ((sign = [45] /\ v = - decimal ds) \/ ((sign = [] \/ sign = [43]) /\ v = decimal ds)).
Definition int32_text (s : list Z) (v : Z) : Prop := int_text s v /\ - 2 ^ 31 <= v <= 2 ^ 31 - 1.
Definition int64_text (s : list Z) (v : Z) : Prop := int_text s v /\ - 2 ^ 63 <= v <= 2 ^ 63 - 1.

(** A truth value: a word in letters of any case, or zeros, or zeros and a one. *)
Definition truth_words (b : bool) : list (list Z) :=
  map bytes_of (if b then ["y"; "yes"; "t"; "true"; "on"]%string else ["n"; "no"; "f"; "false"; "off"]%string).
Definition bool_text (s : list Z) (b : bool) : Prop :=
  exists pre w post, s = pre ++ w ++ post /\ Forall space pre /\ Forall space post
    /\ (In (map lower w) (truth_words b)
        \/ exists zs, Forall (eq 48) zs /\ if b then w = zs ++ [49] else w = zs /\ zs <> []).

(** Ports between commas; empty ones and a comma at the end do not count. *)
Inductive port_piece : list Z -> list Z -> Prop :=
| pp_none : port_piece [] []
| pp_one p v : p <> [] -> int32_text p v -> port_piece p [v].
Inductive ports_text : list Z -> list Z -> Prop :=
| pt_last p l : ~ In 44 p -> port_piece p l -> ports_text p l
| pt_end p l : ~ In 44 p -> port_piece p l -> ports_text (p ++ [44]) l
| pt_more p l r l' : ~ In 44 p -> port_piece p l -> r <> [] -> ports_text r l' -> ports_text (p ++ 44 :: r) (l ++ l').

(** A parameter that may be missing. *)
Definition field {A} (P : list Z -> A -> Prop) (s : list Z) (dflt v : A) : Prop :=
  (s = [] /\ v = dflt) \/ (s <> [] /\ P s v).
(** The ports: those listed, or as many as said, from the port of the URL or the first
    port on. *)
Definition ports_meant (get : list Z -> list Z) (port : Z) (ports : list Z) : Prop :=
  exists l, ports_text (get PORTS_PARAM) l /\
    ((l <> [] /\ ports = l) \/
     (l = [] /\ exists start num,
        ((0 < port /\ start = port) \/ (port <= 0 /\ int32_text (get START_PORT_PARAM) start))
        /\ int32_text (get NUM_PORTS_PARAM) num
        /\ start + num - 1 < 2 ^ 31 /\ zlen ports = Z.max 0 num /\ consecutive start ports)).
Definition means (u : uri) (r : request) : Prop :=
  let get k := map_get k (u_params u) in
  r_transferId r = get TRANSFER_ID_PARAM /\ r_host r = u_host u /\ r_destId r = get DEST_IDENTIFIER_PARAM
  /\ r_ns r = get NAMESPACE_PARAM /\ r_dir r = get DIRECTORY_PARAM
  /\ field (fun s e => key_text s (ep_type e) (ep_data e)) (get ENCRYPTION_PARAM) enc_none (r_enc r)
  /\ field bool_text (get TLS_PARAM) false (r_tls r)
  /\ field bool_text (get DOWNLOAD_RESUMPTION_PARAM) false (r_resume r)
  /\ field int64_text (get RECEIVER_PROTOCOL_VERSION_PARAM) protocol_version (r_version r)
  /\ field int64_text (get IV_CHANGE_INTERVAL_PARAM) 0 (r_iv r)
  /\ ports_meant get (u_port u) (r_ports r) /\ r_error r = OK.
