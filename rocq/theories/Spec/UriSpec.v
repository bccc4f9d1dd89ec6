(** What escaped text, key text and valid requests are, independently of the
    functions that produce and read them. *)
From Verif Require Export Model.Uri.

(** A lower-case hexadecimal digit and its value. *)
Definition hex_digit (c v : Z) : Prop :=
  (48 <= c <= 57 /\ v = c - 48) \/ (97 <= c <= 102 /\ v = c - 87).

(** [denotes t s]: the escaped text [t] stands for the bytes [s]. *)
Inductive denotes : list Z -> list Z -> Prop :=
| den_nil : denotes [] []
| den_char c t s : c <> 37 -> denotes t s -> denotes (c :: t) (c :: s)
| den_hex a b x y t s : hex_digit a x -> hex_digit b y -> denotes t s ->
    denotes (37 :: a :: b :: t) ((16 * x + y) :: s).

(** Characters with a meaning in a URL: percent, ampersand, equals, question
    mark, hash, slash, brackets, spaces and control characters, and bytes above
    127. *)
Definition separator (c : Z) : Prop :=
  c = 38 \/ c = 61 \/ c = 63 \/ c = 35 \/ c = 47 \/ c = 91 \/ c = 93 \/ c <= 32 \/ 127 <= c.

(** Big-endian hexadecimal numbers. *)
Inductive hex_number : list Z -> Z -> Prop :=
| hexn_nil : hex_number [] 0
| hexn_snoc t n c v : hex_number t n -> hex_digit c v -> hex_number (t ++ [c]) (16 * n + v).

(** Pairs of hexadecimal digits. *)
Inductive hex_pairs : list Z -> list Z -> Prop :=
| hexp_nil : hex_pairs [] []
| hexp_cons a b x y t s : hex_digit a x -> hex_digit b y -> hex_pairs t s ->
    hex_pairs (a :: b :: t) ((16 * x + y) :: s).

(** The text of a key of type [ty]: type, colon, at least one byte. *)
Definition key_text (t : list Z) (ty : Z) (key : list Z) : Prop :=
  exists d h, t = d ++ 58 :: h /\ hex_number d ty /\ hex_pairs h key /\
    key <> [] /\ (ty = ENC_AES128_CTR \/ ty = ENC_AES128_GCM).

(** Host names a URL can carry. *)
Definition valid_host (h : list Z) : Prop :=
  h <> [] /\ ~ In 0 h /\
  (In 58 h -> ~ In 93 h) /\
  (~ In 58 h -> ~ In 63 h /\ hd 0 h <> 91).

(** Consecutive ports starting with [p]. *)
Fixpoint consecutive (p : Z) (l : list Z) : Prop :=
  match l with [] => True | q :: r => q = p /\ consecutive (p + 1) r end.

(** Port lists a URL can carry: not empty, and if the ports are consecutive the
    first one is positive. *)
Definition valid_ports (l : list Z) : Prop :=
  l <> [] /\ Forall in_i32 l /\ zlen l < 2 ^ 31 /\
  forall p r, l = p :: r -> consecutive p l -> 0 < p.

Definition valid_key (e : encparams) : Prop :=
  e = enc_none \/
  ((ep_type e = ENC_AES128_CTR \/ ep_type e = ENC_AES128_GCM) /\ ep_data e <> [] /\ bytes_ok (ep_data e)).

Definition valid_request (r : request) : Prop :=
  r_error r = OK /\ valid_host (r_host r) /\ valid_ports (r_ports r) /\ valid_key (r_enc r) /\
  in_i64 (r_version r) /\ in_i64 (r_iv r) /\
  bytes_ok (r_transferId r) /\ bytes_ok (r_ns r) /\ bytes_ok (r_destId r).

(** The request without its directory, which the URL does not carry. *)
Definition without_dir (r : request) : request :=
  {| r_transferId := r_transferId r; r_enc := r_enc r; r_version := r_version r;
     r_ports := r_ports r; r_host := r_host r; r_destId := r_destId r; r_ns := r_ns r;
     r_dir := []; r_resume := r_resume r; r_tls := r_tls r; r_iv := r_iv r; r_error := r_error r |}.

Definition with_key (r : request) (k : list Z) : request :=
  {| r_transferId := r_transferId r; r_enc := {| ep_type := ep_type (r_enc r); ep_data := k |};
     r_version := r_version r;
     r_ports := r_ports r; r_host := r_host r; r_destId := r_destId r; r_ns := r_ns r;
     r_dir := r_dir r; r_resume := r_resume r; r_tls := r_tls r; r_iv := r_iv r; r_error := r_error r |}.
