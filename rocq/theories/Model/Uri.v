(** Connection URLs and transfer requests (WdtTransferRequest.cpp) and the text
    form of the encryption key (util/EncryptionUtils.cpp).  Strings are lists of
    bytes; [char] comparisons in the code are signed, which only matters for
    bytes above 127, never equal to any character tested for. *)
From Coq Require Import String Ascii.
From Verif Require Export Model.Stats.

(** Bytes of a string literal. *)
Definition bytes_of (s : string) : list Z :=
  map (fun c => Z.of_N (N_of_ascii c)) (list_ascii_of_string s).

(** ** Hexadecimal digits and escaping *)

(** WdtUri::toHex, WdtTransferRequest.cpp:41-47; its WDT_CHECK_LT(v, 16) cannot
    fail at the call sites: half bytes and encryption types. *)
Definition toHex (v : Z) : Z := if v <=? 9 then 48 + v else 97 + v - 10.

(** WdtUri::fromHex, WdtTransferRequest.cpp:49-57. *)
Definition fromHex (c : Z) : Z :=
  if (c <? 48) || ((57 <? c) && ((c <? 97) || (102 <? c))) then -1
  else if c <=? 57 then c - 48 else c - 97 + 10.

(** Characters escape leaves alone, WdtTransferRequest.cpp:66-68. *)
Definition plain (c : Z) : bool :=
  (c =? 44) || (c =? 58) || (c =? 46) || (c =? 95) || (c =? 43) || (c =? 45) ||
  ((65 <=? c) && (c <=? 90)) || ((97 <=? c) && (c <=? 122)) || ((48 <=? c) && (c <=? 57)).

(** WdtUri::escape, WdtTransferRequest.cpp:60-77. *)
Fixpoint escape (s : list Z) : list Z :=
  match s with
  | [] => []
  | c :: r => if plain c then c :: escape r
              else 37 :: toHex (c / 16) :: toHex (c mod 16) :: escape r
  end.

(** WdtUri::unescape, WdtTransferRequest.cpp:80-105, into an empty string: the
    result and what was decoded. *)
Fixpoint unescape (s : list Z) : bool * list Z :=
  match s with
  | [] => (true, [])
  | c :: r =>
    if negb (c =? 37) then let (ok, o) := unescape r in (ok, c :: o)
    else match r with
         | a :: b :: r' =>
           if (fromHex a <? 0) || (fromHex b <? 0) then (false, [])
           else let (ok, o) := unescape r' in (ok, (fromHex a * 16 + fromHex b) :: o)
         | _ => (false, [])
         end
  end.

(** ** folly::to and folly::toAppend for integers and booleans *)

(** Decimal digits of a non-negative number, most significant first. *)
Fixpoint digits_of (fuel : nat) (n : Z) (acc : list Z) : list Z :=
  match fuel with
  | O => acc
  | S f => let acc' := (48 + n mod 10) :: acc in
           if n <? 10 then acc' else digits_of f (n / 10) acc'
  end.
Definition print_nat (n : Z) : list Z := digits_of (S (Z.to_nat (Z.log2 n))) n [].
Definition print_int (n : Z) : list Z := if n <? 0 then 45 :: print_nat (- n) else print_nat n.

Definition is_space (c : Z) : bool := ((9 <=? c) && (c <=? 13)) || (c =? 32).
Definition is_digit (c : Z) : bool := (48 <=? c) && (c <=? 57).
Fixpoint drop_space (s : list Z) : list Z :=
  match s with c :: r => if is_space c then drop_space r else s | [] => [] end.
(** Value of the leading digits and what follows them. *)
Fixpoint read_digits (acc : Z) (s : list Z) : Z * list Z :=
  match s with
  | c :: r => if is_digit c then read_digits (acc * 10 + (c - 48)) r else (acc, s)
  | [] => (acc, [])
  end.
(** folly::to<int32_t> / to<int64_t> of a string (folly/Conv.h): optional
    surrounding spaces and sign, at least one digit, in range; [None] is the
    exception. *)
Definition parse_int (lo hi : Z) (s : list Z) : option Z :=
  let fin neg t :=
    match t with
    | c :: _ =>
      if is_digit c then
        let (v, rest) := read_digits 0 t in
        let v' := if (neg : bool) then - v else v in
        match drop_space rest with
        | [] => if (lo <=? v') && (v' <=? hi) then Some v' else None
        | _ => None
        end
      else None
    | [] => None
    end in
  match drop_space s with
  | [] => None
  | c :: r => if c =? 45 then fin true r else if c =? 43 then fin false r else fin false (c :: r)
  end.
Definition parse_i32 := parse_int (- 2 ^ 31) (2 ^ 31 - 1).
Definition parse_i64 := parse_int (- 2 ^ 63) (2 ^ 63 - 1).

Definition lower (c : Z) : Z := if (65 <=? c) && (c <=? 90) then c + 32 else c.
(** Digits accepted by to<bool>: zeros, then at most one 1. *)
Fixpoint read_bool_digits (acc : bool) (s : list Z) : option (bool * list Z) :=
  match s with
  | c :: r => if is_digit c
              then if acc || negb ((c =? 48) || (c =? 49)) then None
                   else read_bool_digits (c =? 49) r
              else Some (acc, s)
  | [] => Some (acc, [])
  end.
(** folly::to<bool> of a string (folly/Conv.cpp str_to_bool). *)
Definition parse_bool (s : list Z) : option bool :=
  let t := drop_space s in
  let word w (b : bool) r := match r with None => let n := List.length w in
      if str_eqb (map lower (firstn n t)) w
      then match drop_space (skipn n t) with [] => Some b | _ => None end else None
      | Some _ => r end in
  match t with
  | c :: _ =>
    if is_digit c then
      match read_bool_digits false t with
      | Some (b, rest) => match drop_space rest with [] => Some b | _ => None end
      | None => None
      end
    else word (bytes_of "yes") true (word (bytes_of "y") true (word (bytes_of "true") true
         (word (bytes_of "t") true (word (bytes_of "on") true (word (bytes_of "no") false
         (word (bytes_of "n") false (word (bytes_of "false") false (word (bytes_of "f") false
         (word (bytes_of "off") false None)))))))))
  | [] => None
  end.
Definition print_bool (b : bool) : list Z := if b then [49] else [48].

(** ** WdtUri *)

(** std::string ordering (bytes as unsigned). *)
Fixpoint str_ltb (a b : list Z) : bool :=
  match a, b with
  | [], [] => false
  | [], _ :: _ => true
  | _ :: _, [] => false
  | x :: a', y :: b' => if x <? y then true else if y <? x then false else str_ltb a' b'
  end.

(** std::map<string, string> queryParams_, ordered by key. *)
Definition kvmap := list (list Z * list Z).
(** operator[] assignment. *)
Fixpoint map_set (k v : list Z) (m : kvmap) : kvmap :=
  match m with
  | [] => [(k, v)]
  | (k', v') :: r => if str_eqb k k' then (k, v) :: r
                     else if str_ltb k k' then (k, v) :: m else (k', v') :: map_set k v r
  end.
(** WdtUri::getQueryParam, WdtTransferRequest.cpp:240-247. *)
Fixpoint map_get (k : list Z) (m : kvmap) : list Z :=
  match m with
  | [] => []
  | (k', v) :: r => if str_eqb k k' then v else map_get k r
  end.

(** Members of WdtUri, WdtTransferRequest.h. *)
Record uri := { u_host : list Z; u_port : Z; u_params : kvmap }.
Definition uri_new : uri := {| u_host := []; u_port := -1; u_params := [] |}.

Definition WDT_URL_PREFIX : list Z := bytes_of "wdt://".

(** The loop over the parameters in generateUrl, WdtTransferRequest.cpp:119-126. *)
Fixpoint gen_params (prefix : Z) (m : kvmap) : list Z :=
  match m with
  | [] => []
  | (k, v) :: r =>
    match v with
    | [] => gen_params prefix r
    | _ => prefix :: k ++ 61 :: escape v ++ gen_params 38 r
    end
  end.
(** WdtUri::generateUrl, WdtTransferRequest.cpp:107-128. *)
Definition generateUrl (u : uri) : list Z :=
  WDT_URL_PREFIX ++
  (if existsb (Z.eqb 58) (u_host u) then 91 :: u_host u ++ [93] else u_host u) ++
  (if 0 <? u_port u then 58 :: print_int (u_port u) else []) ++
  gen_params 63 (u_params u).

(** StringPiece::find of one of the characters accepted by [f]; the length when
    none. *)
Fixpoint find_if (f : Z -> bool) (s : list Z) : nat :=
  match s with [] => O | c :: r => if f c then O else S (find_if f r) end.
(** The string built from [char*]: up to the first zero byte. *)
Definition cstr (s : list Z) : list Z := firstn (find_if (Z.eqb 0) s) s.
(** StringPiece::split_step: up to the delimiter, and what follows it. *)
Definition split_step (d : Z) (s : list Z) : list Z * list Z :=
  let i := find_if (Z.eqb d) s in (firstn i s, skipn (S i) s).

(** The loop over key=value pairs, WdtTransferRequest.cpp:205-228.  Every turn
    removes at least one character, so [fuel] may be the length. *)
Fixpoint parse_params (fuel : nat) (status : Z) (s : list Z) (m : kvmap) : Z * kvmap :=
  match s, fuel with
  | [], _ => (status, m)
  | _, O => (status, m)
  | _, S f =>
    let (p0, rest0) := split_step 38 s in
    let (pair, rest) := match p0 with [] => (rest0, []) | _ => (p0, rest0) end in
    let (key, value) := split_step 61 pair in
    match key with
    | [] => (URI_PARSE_ERROR, m)
    | _ => let (ok, v) := unescape value in
           parse_params f (if ok then status else URI_PARSE_ERROR) rest (map_set key v m)
    end
  end.

(** WdtUri::process, WdtTransferRequest.cpp:130-230. *)
Definition process (url : list Z) : Z * uri :=
  if zlen url <? zlen WDT_URL_PREFIX then (URI_PARSE_ERROR, uri_new)
  else if negb (str_eqb (firstn 6 url) WDT_URL_PREFIX) then (URI_PARSE_ERROR, uri_new)
  else
    match skipn 6 url with
    | [] => (URI_PARSE_ERROR, uri_new)
    | c :: r =>
      let parsed :=
        if c =? 91
        then let i := find_if (Z.eqb 93) r in
             if Nat.eqb i (List.length r) then None
             else Some (firstn i (cstr r), skipn (S i) r)
        else let i := find_if (fun x => (x =? 58) || (x =? 63)) (c :: r) in
             Some (firstn i (cstr (c :: r)), skipn i (c :: r)) in
      match parsed with
      | None => (URI_PARSE_ERROR, uri_new)
      | Some (host, p1) =>
        let st1 := match host with [] => URI_PARSE_ERROR | _ => OK end in
        let '(st2, port, p2) :=
          match p1 with
          | c1 :: r1 =>
            if c1 =? 58
            then let i := find_if (Z.eqb 63) r1 in
                 match parse_i32 (firstn i (cstr r1)) with
                 | Some v => (st1, v, skipn i r1)
                 | None => (URI_PARSE_ERROR, -1, skipn i r1)
                 end
            else (st1, -1, p1)
          | [] => (st1, -1, [])
          end in
        match p2 with
        | [] => (st2, {| u_host := host; u_port := port; u_params := [] |})
        | c2 :: r2 =>
          if negb (c2 =? 63)
          then (URI_PARSE_ERROR, {| u_host := host; u_port := port; u_params := [] |})
          else let (st3, m) := parse_params (List.length r2) st2 r2 [] in
               (st3, {| u_host := host; u_port := port; u_params := m |})
        end
      end
    end.

(** ** Encryption parameters *)

(** EncryptionType, util/EncryptionUtils.h:22. *)
Definition ENC_NONE : Z := 0.
Definition ENC_AES128_CTR : Z := 1.
Definition ENC_AES128_GCM : Z := 2.
Definition NUM_ENC_TYPES : Z := 3.

(** EncryptionParams: type_ and data_. *)
Record encparams := { ep_type : Z; ep_data : list Z }.
Definition enc_none : encparams := {| ep_type := ENC_NONE; ep_data := [] |}.
(** EncryptionParams::isSet, util/EncryptionUtils.h:69-71. *)
Definition enc_isSet (e : encparams) : bool := negb (ep_type e =? ENC_NONE).

(** Two hex digits for every byte, util/EncryptionUtils.cpp:100-103. *)
Fixpoint hex_bytes (s : list Z) : list Z :=
  match s with [] => [] | c :: r => toHex (c / 16) :: toHex (c mod 16) :: hex_bytes r end.
(** EncryptionParams::getUrlSafeString, util/EncryptionUtils.cpp:94-105. *)
Definition enc_getUrlSafeString (e : encparams) : list Z :=
  toHex (ep_type e) :: 58 :: hex_bytes (ep_data e).

(** EncryptionParams::getLogSafeString, util/EncryptionUtils.cpp:107-115;
    [hash] is std::hash<string>. *)
Definition enc_getLogSafeString (hash : list Z -> Z) (e : encparams) : list Z :=
  toHex (ep_type e) :: 58 :: bytes_of "..." ++ print_nat (hash (ep_data e)) ++ bytes_of "...".

(** The parser's states, util/EncryptionUtils.cpp:122-127. *)
Inductive ustate := IN_TYPE | FIRST_HEX | LEFT_HEX | RIGHT_HEX.

(** The loop of EncryptionParams::unserialize, util/EncryptionUtils.cpp:130-163:
    state, type, byte and the decoded key, or the early error return with the
    key decoded so far.  [(type << 4) | v] on int (C++17) is undefined when the
    shifted value does not fit in 32 bits or type is negative. *)
Inductive uloop := UEnd (st : ustate) (type : Z) (data : list Z) | UErr (data : list Z) | UUndef.
Fixpoint unser_loop (s : list Z) (st : ustate) (type byte : Z) (data : list Z) : uloop :=
  match s with
  | [] => UEnd st type data
  | c :: r =>
    let hex :=
      let v := fromHex c in
      if v <? 0 then UErr data
      else match st with
           | IN_TYPE =>
             if (type <? 0) || (2 ^ 32 <=? type * 16) then UUndef
             else unser_loop r IN_TYPE (to_i32 (type * 16 + v)) byte data
           | RIGHT_HEX => unser_loop r LEFT_HEX type 0 (data ++ [byte + v])
           | _ => unser_loop r RIGHT_HEX type (v * 16) data
           end in
    match st with
    | IN_TYPE => if c =? 58 then if type =? 0 then UErr data
                                 else unser_loop r FIRST_HEX type byte data
                 else hex
    | _ => hex
    end
  end.

(** EncryptionParams::unserialize, util/EncryptionUtils.cpp:118-178: error code
    and the resulting parameters (erased first). *)
Definition unserialize (input : list Z) : outcome (Z * encparams) :=
  match unser_loop input IN_TYPE 0 0 [] with
  | UUndef => Undef
  | UErr d => Ret (ERROR, {| ep_type := ENC_NONE; ep_data := d |})
  | UEnd st type d =>
    match st with
    | LEFT_HEX =>
      if (type <=? ENC_NONE) || (NUM_ENC_TYPES <=? type)
      then Ret (ERROR, {| ep_type := ENC_NONE; ep_data := d |})
      else Ret (OK, {| ep_type := type; ep_data := d |})
    | _ => Ret (ERROR, {| ep_type := ENC_NONE; ep_data := d |})
    end
  end.

(** ** Transfer requests *)

(** WdtTransferRequest, WdtTransferRequest.h: the fields that appear in URLs. *)
Record request := {
  r_transferId : list Z; r_enc : encparams; r_version : Z; r_ports : list Z;
  r_host : list Z; r_destId : list Z; r_ns : list Z; r_dir : list Z;
  r_resume : bool; r_tls : bool; r_iv : Z; r_error : Z }.

(** WdtTransferRequest::genPortsVector, WdtTransferRequest.cpp:266-273. *)
Definition genPortsVector (start num : Z) : list Z :=
  map (fun i => start + Z.of_nat i) (seq 0 (Z.to_nat num)).

(** Names of the parameters, WdtTransferRequest.cpp:275-287. *)
Definition TRANSFER_ID_PARAM := bytes_of "id".
Definition RECEIVER_PROTOCOL_VERSION_PARAM := bytes_of "recpv".
Definition DIRECTORY_PARAM := bytes_of "dir".
Definition PORTS_PARAM := bytes_of "ports".
Definition START_PORT_PARAM := bytes_of "start_port".
Definition NUM_PORTS_PARAM := bytes_of "num_ports".
Definition ENCRYPTION_PARAM := bytes_of "Enc".
Definition TLS_PARAM := bytes_of "tls".
Definition NAMESPACE_PARAM := bytes_of "ns".
Definition DEST_IDENTIFIER_PARAM := bytes_of "dstid".
Definition DOWNLOAD_RESUMPTION_PARAM := bytes_of "dr".
Definition IV_CHANGE_INTERVAL_PARAM := bytes_of "iv_change_int".

(** Protocol::protocol_version, Protocol.cpp:18 (WDT_VERSION_MINOR, CMakeLists.txt:24). *)
Definition protocol_version : Z := 32.

(** The loop reading the port list, WdtTransferRequest.cpp:372-387; a do-while
    loop: [fuel] as in [parse_params]. *)
Fixpoint parse_ports (fuel : nat) (err : Z) (s : list Z) : Z * list Z :=
  match fuel with
  | O => (err, [])
  | S f =>
    let (p, rest) := split_step 44 s in
    let '(err', here) :=
      match p with
      | [] => (err, [])
      | _ => match parse_i32 p with Some v => (err, [v]) | None => (URI_PARSE_ERROR, []) end
      end in
    match rest with
    | [] => (err', here)
    | _ => let (e, more) := parse_ports f err' rest in (e, here ++ more)
    end
  end.

(** A parameter parsed when present, keeping the default otherwise: error code
    and value; WdtTransferRequest.cpp:317-370. *)
Definition opt_param {A} (parse : list Z -> option A) (s : list Z) (dflt : A) (err : Z) : Z * A :=
  match s with
  | [] => (err, dflt)
  | _ => match parse s with Some v => (err, v) | None => (URI_PARSE_ERROR, dflt) end
  end.

(** WdtTransferRequest::WdtTransferRequest(const string&),
    WdtTransferRequest.cpp:301-421. *)
Definition parseRequest (url : list Z) : outcome request :=
  let (e0, u) := process url in
  let get k := map_get k (u_params u) in
  let encStr := get ENCRYPTION_PARAM in
  obind (match encStr with
         | [] => Ret (e0, enc_none)
         | _ => obind (unserialize encStr) (fun '(code, e) =>
                  Ret (if code =? OK then e0 else getMoreInterestingError code e0, e))
         end) (fun '(e1, enc) =>
  let (e2, tls) := opt_param parse_bool (get TLS_PARAM) false e1 in
  let (e3, resume) := opt_param parse_bool (get DOWNLOAD_RESUMPTION_PARAM) false e2 in
  let (e4, version) := opt_param parse_i64 (get RECEIVER_PROTOCOL_VERSION_PARAM) protocol_version e3 in
  let (e5, iv) := opt_param parse_i64 (get IV_CHANGE_INTERVAL_PARAM) 0 e4 in
  let portsStr := get PORTS_PARAM in
  let (e6, ports) := parse_ports (S (List.length portsStr)) e5 portsStr in
  let mk e p := Ret {| r_transferId := get TRANSFER_ID_PARAM; r_enc := enc; r_version := version;
     r_ports := p; r_host := u_host u; r_destId := get DEST_IDENTIFIER_PARAM;
     r_ns := get NAMESPACE_PARAM; r_dir := get DIRECTORY_PARAM; r_resume := resume;
     r_tls := tls; r_iv := iv; r_error := e |} in
  match ports with
  | _ :: _ => mk e6 ports
  | [] =>
    let startStr := get START_PORT_PARAM in
    let numStr := get NUM_PORTS_PARAM in
    let '(e7, start) :=
      if u_port u <=? 0
      then match startStr with
           | [] => (INVALID_REQUEST, u_port u)
           | _ => match parse_i32 startStr with
                  | Some v => (e6, v)
                  | None => (URI_PARSE_ERROR, u_port u)
                  end
           end
      else (e6, u_port u) in
    let '(e8, num) :=
      match numStr with
      | [] => (INVALID_REQUEST, 0)
      | _ => match parse_i32 numStr with Some v => (e7, v) | None => (URI_PARSE_ERROR, 0) end
      end in
    if e8 =? OK
    then if 2 ^ 31 <=? start + num - 1 then Undef (* startPort + i overflows *)
         else mk e8 (genPortsVector start num)
    else mk e8 []
  end).

(** WdtTransferRequest::getSerializedPortsList, WdtTransferRequest.cpp:488-498. *)
Fixpoint serialized_ports (l : list Z) : list Z :=
  match l with
  | [] => []
  | p :: r => print_int p ++ match r with [] => [] | _ => 44 :: serialized_ports r end
  end.

(** The search for holes, WdtTransferRequest.cpp:471-479. *)
Fixpoint hasHoles (prev : Z) (l : list Z) : bool :=
  match l with [] => false | p :: r => if negb (p =? prev + 1) then true else hasHoles p r end.

(** WdtTransferRequest::serializePorts, WdtTransferRequest.cpp:465-486. *)
Definition serializePorts (l : list Z) (u : uri) : uri :=
  match l with
  | [] => u
  | p :: r =>
    if hasHoles p r
    then {| u_host := u_host u; u_port := u_port u;
            u_params := map_set PORTS_PARAM (serialized_ports l) (u_params u) |}
    else {| u_host := u_host u; u_port := p;
            u_params := map_set NUM_PORTS_PARAM (print_nat (zlen l)) (u_params u) |}
  end.

Definition setQueryParam (k v : list Z) (u : uri) : uri :=
  {| u_host := u_host u; u_port := u_port u; u_params := map_set k v (u_params u) |}.

(** WdtTransferRequest::generateUrlInternal, WdtTransferRequest.cpp:431-463;
    [names] is errorCodeToStr, [hash] std::hash<string>. *)
Definition generateUrlInternal (names : Z -> list Z) (hash : list Z -> Z)
  (r : request) (genFull forLogging : bool) : list Z :=
  if negb (r_error r =? OK) then names (r_error r)
  else
    let u0 := {| u_host := r_host r; u_port := -1; u_params := [] |} in
    let u1 := setQueryParam TRANSFER_ID_PARAM (r_transferId r) u0 in
    let u2 := setQueryParam NAMESPACE_PARAM (r_ns r) u1 in
    let u3 := setQueryParam DEST_IDENTIFIER_PARAM (r_destId r) u2 in
    let u4 := setQueryParam RECEIVER_PROTOCOL_VERSION_PARAM (print_int (r_version r)) u3 in
    let u5 := setQueryParam IV_CHANGE_INTERVAL_PARAM (print_int (r_iv r)) u4 in
    let u6 := if r_resume r then setQueryParam DOWNLOAD_RESUMPTION_PARAM (print_bool (r_resume r)) u5 else u5 in
    let u7 := serializePorts (r_ports r) u6 in
    let u8 := if genFull then setQueryParam DIRECTORY_PARAM (r_dir r) u7 else u7 in
    let u9 := if enc_isSet (r_enc r)
              then setQueryParam ENCRYPTION_PARAM
                     (if forLogging then enc_getLogSafeString hash (r_enc r)
                      else enc_getUrlSafeString (r_enc r)) u8
              else u8 in
    generateUrl (setQueryParam TLS_PARAM (print_bool (r_tls r)) u9).

(** WdtTransferRequest.cpp:423-429. *)
Definition genWdtUrlWithSecret names hash r := generateUrlInternal names hash r false false.
Definition getLogSafeString names hash r := generateUrlInternal names hash r true true.
