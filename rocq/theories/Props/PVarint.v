(** Properties C01-C04: integer and string serialisation. *)
From Verif Require Import Proofs.VarintFacts Proofs.FrameFacts.

(** C01: what encodeVarU64 wrote at [pos] is what decodeVarU64 reads at [pos],
    ending at the same position, whatever else the buffer holds and whatever
    the reader's limit. *)
Theorem C01_varint_unsigned_roundtrip : forall v buf datasz pos,
  in_u64 v -> 0 <= pos -> datasz <= zlen buf -> pos + 9 <= datasz ->
  exists buf' pos',
    encodeVarU64 buf datasz pos v = Ret {| er_ok := true; er_buf := buf'; er_pos := pos' |} /\
    pos + 1 <= pos' <= pos + 9 /\
    forall datalen, pos' <= datalen -> decodeVarU64 buf' datalen pos = Ret (DOk v pos').
Proof. exact varu64_buffer_roundtrip. Qed.
Print Assumptions C01_varint_unsigned_roundtrip.

Example C01_varint_unsigned_roundtrip_example :
  in_u64 18446744073709551615 /\
  encodeVarU64 (repeat 7 12) 12 2 18446744073709551615
  = Ret {| er_ok := true; er_buf := [7; 7; 255; 255; 255; 255; 255; 255; 255; 255; 255; 7];
           er_pos := 11 |} /\
  decodeVarU64 [7; 7; 255; 255; 255; 255; 255; 255; 255; 255; 255; 7] 12 2
  = Ret (DOk 18446744073709551615 11).
Proof. vm_compute; intuition congruence. Qed.

Theorem C01_varint_signed_roundtrip : forall v buf datasz pos,
  in_i64 v -> 0 <= pos -> datasz <= zlen buf -> pos + 9 <= datasz ->
  exists buf' pos',
    encodeVarI64 buf datasz pos v = Ret {| er_ok := true; er_buf := buf'; er_pos := pos' |} /\
    pos + 1 <= pos' <= pos + 9 /\
    forall datalen, pos' <= datalen -> decodeVarI64 buf' datalen pos = Ret (DOk v pos').
Proof. exact vari64_buffer_roundtrip. Qed.
Print Assumptions C01_varint_signed_roundtrip.

Example C01_varint_signed_roundtrip_example :
  in_i64 (- 9223372036854775808) /\
  decodeVarI64 (encodeVarI64_str (- 9223372036854775808)) 9 0
  = Ret (DOk (- 9223372036854775808) 9).
Proof. vm_compute; intuition congruence. Qed.

(** C01: the byte-range decoders return the encoded value and leave exactly the
    bytes that follow. *)
Theorem C01_byterange_roundtrips : forall rest,
  (forall v, in_u64 v -> decodeUInt64 (encodeVarU64_str v ++ rest) = Ret (Some (v, rest))) /\
  (forall v, in_i64 v -> decodeInt64 (encodeVarI64_str v ++ rest) = Ret (Some (v, rest))) /\
  (forall v, in_i32 v -> decodeInt32 (encodeVarI64_str v ++ rest) = Ret (Some (v, rest))) /\
  (forall v, in_nat63 v -> decodeInt64C (encodeVarU64_str v ++ rest) = Ret (Some (v, rest))) /\
  (forall v, in_nat31 v -> decodeInt32C (encodeVarU64_str v ++ rest) = Ret (Some (v, rest))).
Proof. exact range_roundtrips. Qed.
Print Assumptions C01_byterange_roundtrips.

Example C01_byterange_roundtrips_example :
  decodeInt32 (encodeVarI64_str (-300) ++ [1; 2]) = Ret (Some (-300, [1; 2])).
Proof. vm_compute; reflexivity. Qed.

(** C01: fixed length little endian integers ([n] = 2, 4, 8). *)
Theorem C01_fixed_length_roundtrip : forall n v rest,
  (1 <= n)%nat -> 0 <= v < 2 ^ (8 * Z.of_nat n - 1) ->
  forall buf sz off, 0 <= off -> sz <= zlen buf -> off + Z.of_nat n <= sz ->
  exists buf', encodeIntFixedLength n buf sz off v
               = Ret {| er_ok := true; er_buf := buf'; er_pos := off + Z.of_nat n |} /\
    decodeIntFixedLength n (slice buf' off (Z.of_nat n) ++ rest) = Ret (Some (v, rest)).
Proof. exact fixed_roundtrip. Qed.
Print Assumptions C01_fixed_length_roundtrip.

Example C01_fixed_length_example :
  encodeInt16FixedLength [0; 0; 0] 3 1 32767
  = Ret {| er_ok := true; er_buf := [0; 255; 127]; er_pos := 3 |} /\
  decodeInt16FixedLength [255; 127; 9] = Ret (Some (32767, [9])).
Proof. vm_compute; split; reflexivity. Qed.

(** C02: on arbitrary bytes every integer decoder returns (no crash, no read
    outside), accepts only values of its range, and what it leaves is a strict
    suffix of what it was given. *)
Theorem C02_decoders_safe :
  SafeDec decodeUInt64 in_u64 /\ SafeDec decodeInt64 in_i64 /\
  SafeDec decodeInt32 in_i32 /\ SafeDec decodeInt64C in_nat63 /\
  SafeDec decodeInt32C in_nat31 /\
  SafeDec decodeInt16FixedLength (fun v => 0 <= v < 2 ^ 15) /\
  SafeDec decodeInt32FixedLength (fun v => 0 <= v < 2 ^ 31) /\
  SafeDec decodeInt64FixedLength (fun v => 0 <= v < 2 ^ 63) /\
  SafeDec decodeString bytes_ok.
Proof.
  exact (conj SafeDec_UInt64 (conj SafeDec_Int64 (conj SafeDec_Int32 (conj SafeDec_Int64C
        (conj SafeDec_Int32C (conj (SafeDec_Fixed 2 ltac:(lia)) (conj (SafeDec_Fixed 4 ltac:(lia))
        (conj (SafeDec_Fixed 8 ltac:(lia)) SafeDec_String)))))))).
Qed.
Print Assumptions C02_decoders_safe.

Example C02_decoders_safe_example :
  bytes_ok [255; 255; 255; 255; 255; 255; 255; 255; 255; 1] /\
  decodeInt64C [255; 255; 255; 255; 255; 255; 255; 255; 255; 1] = Ret None /\
  decodeUInt64 [128; 128] = Ret None /\
  decodeUInt64 [255; 0; 3] = Ret (Some (127, [3])).
Proof. split; [repeat constructor; lia|vm_compute; auto]. Qed.

(** C02: positional decoder: never reads at or past [datalen], consumes at most
    nine bytes. *)
Theorem C02_positional_decoder_safe : forall data datalen pos,
  bytes_ok data -> datalen <= zlen data ->
  exists r, decodeVarU64 data datalen pos = Ret r /\
    match r with
    | DFail => True
    | DOk v pos' => in_u64 v /\ 0 <= pos < pos' /\ pos' <= datalen /\ pos' <= pos + 9
    end.
Proof. exact decodeVarU64_safe. Qed.
Print Assumptions C02_positional_decoder_safe.

(** C02: a frame of negative length or at a negative offset is not decoded: the check stops
    the process before anything is read. *)
Theorem C02_negative_frame_crashes : forall A (D : decoder A) buf off max,
  off < 0 \/ max < 0 -> decode_at D buf off max = Crash.
Proof. exact decode_at_negative. Qed.
Print Assumptions C02_negative_frame_crashes.
Example C02_negative_frame_crashes_ex :
  decode_at (fun br => Ret (Some (br, []))) [1; 2; 3] (-1) 3 = Crash /\
  decode_at (fun br => Ret (Some (br, []))) [1; 2; 3] 1 3 = Ret (Some ([2; 3], 3)).
Proof. vm_compute. auto. Qed.

(** C02: an integer cut anywhere by the end of the data is refused. *)
Theorem C02_cut_integer_refused : forall v datalen pre rest,
  in_u64 v -> datalen < zlen pre + zlen (encodeVarU64_str v) ->
  decodeVarU64 (pre ++ encodeVarU64_str v ++ rest) datalen (zlen pre) = Ret DFail.
Proof. exact decode_cut_rejected. Qed.
Print Assumptions C02_cut_integer_refused.

Example C02_cut_integer_refused_example :
  decodeVarU64 (encodeVarU64_str 300 ++ [5]) 1 0 = Ret DFail /\
  1 < zlen (@nil Z) + zlen (encodeVarU64_str 300).
Proof. vm_compute; auto. Qed.

(** C03: encodeVarU64 touches only [pos, datasz), succeeds exactly when the
    encoding fits, and leaves the position alone on failure. *)
Theorem C03_encode_integer_frame : forall v buf datasz pos,
  in_u64 v -> 0 <= pos -> datasz <= zlen buf ->
  exists r, encodeVarU64 buf datasz pos v = Ret r /\
    same_outside buf (er_buf r) pos datasz /\
    (er_ok r = true <-> pos + zlen (encodeVarU64_str v) <= datasz) /\
    (er_ok r = true -> slice (er_buf r) pos (er_pos r - pos) = encodeVarU64_str v) /\
    (er_ok r = false -> er_pos r = pos).
Proof. exact encode_int_frame. Qed.
Print Assumptions C03_encode_integer_frame.

Example C03_encode_integer_frame_example :
  encodeVarU64 [1; 2; 3; 4] 3 2 300
  = Ret {| er_ok := false; er_buf := [1; 2; 172; 4]; er_pos := 2 |}.
Proof. vm_compute; reflexivity. Qed.

(** C03: the same for strings (the offset may have moved on failure). *)
Theorem C03_encode_string_frame : forall s buf sz off,
  0 <= off -> sz <= zlen buf ->
  exists r, encodeString buf sz off s = Ret r /\
    same_outside buf (er_buf r) off sz /\
    (er_ok r = true <-> off + zlen (encodeVarU64_str (zlen s)) + zlen s <= sz) /\
    (er_ok r = true -> slice (er_buf r) off (er_pos r - off) = encodeVarU64_str (zlen s) ++ s).
Proof. exact encode_string_frame. Qed.
Print Assumptions C03_encode_string_frame.

Example C03_encode_string_frame_example :
  encodeString [0; 0; 0; 0] 3 0 [65; 66; 67]
  = Ret {| er_ok := false; er_buf := [3; 0; 0; 0]; er_pos := 1 |}.
Proof. vm_compute; reflexivity. Qed.

(** C04: strings round trip through a buffer, any bytes may follow. *)
Theorem C04_string_roundtrip : forall s buf sz off rest,
  zlen s < 2 ^ 63 -> 0 <= off -> sz <= zlen buf -> off + 9 + zlen s <= sz ->
  exists buf' off',
    encodeString buf sz off s = Ret {| er_ok := true; er_buf := buf'; er_pos := off' |} /\
    off' <= sz /\
    decodeString (slice buf' off (off' - off) ++ rest) = Ret (Some (s, rest)).
Proof. exact string_roundtrip. Qed.
Print Assumptions C04_string_roundtrip.

(** C04: a declared length larger than the available bytes is refused. *)
Theorem C04_hostile_length_refused : forall n rest,
  in_u64 n -> zlen rest < n -> decodeString (encodeVarU64_str n ++ rest) = Ret None.
Proof. exact decodeString_short. Qed.
Print Assumptions C04_hostile_length_refused.

Example C04_example :
  decodeString ([3; 65; 66; 67] ++ [9]) = Ret (Some ([65; 66; 67], [9])) /\
  decodeString [4; 65; 66; 67] = Ret None.
Proof. vm_compute; auto. Qed.
