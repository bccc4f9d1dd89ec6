(** Variable length and fixed length integers and strings:
    util/SerializationUtil.h and util/SerializationUtil.cpp. *)
From Verif Require Export Model.Bytes.

(** encodeZigZag, SerializationUtil.h:66-71. *)
Definition encodeZigZag (val : Z) : Z :=
  Z.lxor (u64 (Z.shiftl (u64 val) 1)) (u64 (Z.shiftr val 63)).

(** decodeZigZag, SerializationUtil.h:73-75. *)
Definition decodeZigZag (val : Z) : Z :=
  s64 (Z.lxor (Z.shiftr val 1) (u64 (- (Z.land val 1)))).

(** encodeVarU64 (std::string version), SerializationUtil.h:89-97.
    The loop test is [(++count < 9) && (v >= 128)]; [n] is the number of
    further continuation bytes the count allows (8 at entry). The final byte is
    [static_cast<char>(v)], i.e. [v mod 256]. *)
Fixpoint encU64_loop (n : nat) (v : Z) : list Z :=
  match n with
  | O => [v mod 256]
  | S n' =>
      if 128 <=? v
      then Z.lor 128 (Z.land v 127) :: encU64_loop n' (Z.shiftr v 7)
      else [v mod 256]
  end.
Definition encodeVarU64_str (v : Z) : list Z := encU64_loop 8 v.

(** encodeVarI64 (std::string version), SerializationUtil.h:109-111. *)
Definition encodeVarI64_str (v : Z) : list Z := encodeVarU64_str (encodeZigZag v).

(** Result of a buffer encoder: success flag, buffer content afterwards and the
    position/offset reference afterwards. *)
Record encres := { er_ok : bool; er_buf : list Z; er_pos : Z }.

(** Buffer encodeVarU64 loop, SerializationUtil.h:122-143. [p] is the pointer
    as an index from [data], [count] the count so far (so that [pos += count]
    is explicit), [pos0] the position at entry. A store outside the real
    buffer [buf] is [Undef]. *)
Fixpoint encU64_buf_loop (n : nat) (count : Z) (buf : list Z) (datasz pos0 p v : Z)
  : outcome encres :=
  let final :=
    if datasz <=? p then Ret {| er_ok := false; er_buf := buf; er_pos := pos0 |}
    else match upd buf p (v mod 256) with
         | None => Undef
         | Some buf' => Ret {| er_ok := true; er_buf := buf'; er_pos := pos0 + (count + 1) |}
         end in
  match n with
  | O => final
  | S n' =>
      if 128 <=? v then
        if datasz <=? p then Ret {| er_ok := false; er_buf := buf; er_pos := pos0 |}
        else match upd buf p (Z.lor 128 (Z.land v 127)) with
             | None => Undef
             | Some buf' =>
                 encU64_buf_loop n' (count + 1) buf' datasz pos0 (p + 1) (Z.shiftr v 7)
             end
      else final
  end.

(** encodeVarU64 (buffer version), SerializationUtil.h:116-144. *)
Definition encodeVarU64 (buf : list Z) (datasz pos v : Z) : outcome encres :=
  if pos <? 0 then Ret {| er_ok := false; er_buf := buf; er_pos := pos |}
  else encU64_buf_loop 8 0 buf datasz pos pos v.

(** encodeVarI64 (buffer version), SerializationUtil.h:158-160. *)
Definition encodeVarI64 (buf : list Z) (datasz pos sv : Z) : outcome encres :=
  encodeVarU64 buf datasz pos (encodeZigZag sv).

(** encodeVarI64C, SerializationUtil.h:214-219: WDT_CHECK_GE(v, 0). *)
Definition encodeVarI64C (buf : list Z) (datasz pos v : Z) : outcome encres :=
  if v <? 0 then Crash else encodeVarU64 buf datasz pos (u64 v).

(** Sign extension of a [char] to 64 bits: char is signed on the supported
    platform (x86), so [static_cast<uint64_t>(c)] sign-extends. *)
Definition char_to_u64 (b : Z) : Z := u64 (if b <? 128 then b else b - 256).

(** Result of a positional decoder. *)
Inductive decres (A : Type) : Type :=
| DOk (a : A) (pos : Z)
| DFail.
Arguments DOk {A} _ _.
Arguments DFail {A}.

(** decodeVarU64 loop, SerializationUtil.h:195-208. A read outside the real
    buffer [data] is [Undef]. *)
Fixpoint decU64_loop (n : nat) (data : list Z) (datalen p val shift : Z)
  : outcome (decres Z) :=
  let final :=
    match rd data p with
    | None => Undef
    | Some b =>
        Ret (DOk (Z.lor val (u64 (Z.shiftl (char_to_u64 b) shift))) (p + 1))
    end in
  match n with
  | O => final
  | S n' =>
      match rd data p with
      | None => Undef
      | Some b =>
          if Z.land b 128 =? 0 then final
          else
            let val' := Z.lor val (u64 (Z.shiftl (Z.land b 127) shift)) in
            if datalen <=? p + 1 then Ret DFail
            else decU64_loop n' data datalen (p + 1) val' (shift + 7)
      end
  end.

(** decodeVarU64, SerializationUtil.h:175-209. *)
Definition decodeVarU64 (data : list Z) (datalen pos : Z) : outcome (decres Z) :=
  if pos <? 0 then Ret DFail
  else if datalen <=? pos then Ret DFail
  else decU64_loop 8 data datalen pos 0 0.

(** decodeVarI64, SerializationUtil.h:234-242. *)
Definition decodeVarI64 (data : list Z) (datalen pos : Z) : outcome (decres Z) :=
  obind (decodeVarU64 data datalen pos) (fun r =>
  match r with
  | DFail => Ret DFail
  | DOk v p => Ret (DOk (decodeZigZag v) p)
  end).

(** ---------- decoders on a folly::ByteRange ----------
    A ByteRange is the list of remaining bytes; [Ret (Some (v, rest))] is
    [true] with [br] advanced to [rest], [Ret None] is [false]. Simplification:
    where [br] points after a failure is dropped (every caller in /repo gives
    up on failure; decodeInt64C may leave it advanced, decodeInt32 restores it). *)
Definition decoder (A : Type) := list Z -> outcome (option (A * list Z)).

(** br.advance(n), folly: UB-free here as [n <= br.size()]; throws otherwise
    (modelled as [Crash]). *)
Definition advance {A} (br : list Z) (n : Z) (a : A) : outcome (option (A * list Z)) :=
  if zlen br <? n then Crash else Ret (Some (a, skipn (Z.to_nat n) br)).

(** decodeInt64, SerializationUtil.cpp:51-60, with WDT_CHECK_GE(pos, 1). *)
Definition decodeInt64 : decoder Z := fun br =>
  obind (decodeVarI64 br (zlen br) 0) (fun r =>
  match r with
  | DFail => Ret None
  | DOk v pos => if pos <? 1 then Crash else advance br pos v
  end).

(** decodeUInt64, SerializationUtil.cpp:62-71. *)
Definition decodeUInt64 : decoder Z := fun br =>
  obind (decodeVarU64 br (zlen br) 0) (fun r =>
  match r with
  | DFail => Ret None
  | DOk v pos => if pos <? 1 then Crash else advance br pos v
  end).

(** decodeInt32, SerializationUtil.cpp:34-49. *)
Definition decodeInt32 : decoder Z := fun br =>
  obind (decodeInt64 br) (fun r =>
  match r with
  | None => Ret None
  | Some (v, rest) =>
      if (2 ^ 31 - 1 <? v) || (v <? - 2 ^ 31) then Ret None else Ret (Some (v, rest))
  end).

(** decodeInt64C, SerializationUtil.cpp:73-85 ([ures > INT64_MAX] rejected). *)
Definition decodeInt64C : decoder Z := fun br =>
  obind (decodeUInt64 br) (fun r =>
  match r with
  | None => Ret None
  | Some (v, rest) => if 2 ^ 63 - 1 <? v then Ret None else Ret (Some (s64 v, rest))
  end).

(** decodeInt32C, SerializationUtil.cpp:87-102. *)
Definition decodeInt32C : decoder Z := fun br =>
  obind (decodeInt64C br) (fun r =>
  match r with
  | None => Ret None
  | Some (v, rest) =>
      if (2 ^ 31 - 1 <? v) || (v <? 0) then Ret None else Ret (Some (v, rest))
  end).

(** Little endian value of a byte list. *)
Fixpoint le_value (l : list Z) : Z :=
  match l with
  | [] => 0
  | b :: r => b + 256 * le_value r
  end.
(** [n] little endian bytes of a value. *)
Fixpoint le_bytes (n : nat) (v : Z) : list Z :=
  match n with
  | O => []
  | S n' => v mod 256 :: le_bytes n' (v / 256)
  end.
(** Two's complement reading of an [8 * n] bit value. *)
Definition sx (n : Z) (v : Z) : Z :=
  if v <? 2 ^ (8 * n - 1) then v else v - 2 ^ (8 * n).

(** decodeIntFixedLength<T>, SerializationUtil.cpp:104-118, [n = sizeof(T)],
    T signed (int16_t, int32_t, int64_t: lines 120-131). *)
Definition decodeIntFixedLength (n : nat) : decoder Z := fun br =>
  if zlen br <? Z.of_nat n then Ret None
  else
    let res := sx (Z.of_nat n) (le_value (firstn n br)) in
    if res <? 0 then Ret None else Ret (Some (res, skipn n br)).
Definition decodeInt16FixedLength := decodeIntFixedLength 2.
Definition decodeInt32FixedLength := decodeIntFixedLength 4.
Definition decodeInt64FixedLength := decodeIntFixedLength 8.

(** memcpy/store of several bytes at index [i]; [None] out of bounds. *)
Fixpoint store (buf : list Z) (i : Z) (bs : list Z) : option (list Z) :=
  match bs with
  | [] => Some buf
  | b :: r => match upd buf i b with
              | None => None
              | Some buf' => store buf' (i + 1) r
              end
  end.

(** encodeIntFixedLength<T>, SerializationUtil.cpp:133-156. There is no check
    of a negative [off]. *)
Definition encodeIntFixedLength (n : nat) (buf : list Z) (sz off v : Z) : outcome encres :=
  if sz <? off + Z.of_nat n then Ret {| er_ok := false; er_buf := buf; er_pos := off |}
  else match store buf off (le_bytes n v) with
       | None => Undef
       | Some buf' => Ret {| er_ok := true; er_buf := buf'; er_pos := off + Z.of_nat n |}
       end.
Definition encodeInt16FixedLength := encodeIntFixedLength 2.
Definition encodeInt32FixedLength := encodeIntFixedLength 4.
Definition encodeInt64FixedLength := encodeIntFixedLength 8.

(** encodeString, SerializationUtil.cpp:158-171. When the length fits but the
    bytes do not, [off] stays past the length. *)
Definition encodeString (buf : list Z) (sz off : Z) (str : list Z) : outcome encres :=
  obind (encodeVarU64 buf sz off (zlen str)) (fun r =>
  if negb (er_ok r) then Ret r
  else
    let off1 := er_pos r in
    if sz <? off1 + zlen str
    then Ret {| er_ok := false; er_buf := er_buf r; er_pos := off1 |}
    else match store (er_buf r) off1 str with
         | None => Undef
         | Some buf' =>
             Ret {| er_ok := true; er_buf := buf'; er_pos := off1 + zlen str |}
         end).

(** decodeString, SerializationUtil.cpp:173-186 ([strLen > br.size()] is an
    unsigned comparison). *)
Definition decodeString : decoder (list Z) := fun br =>
  obind (decodeUInt64 br) (fun r =>
  match r with
  | None => Ret None
  | Some (n, rest) =>
      if zlen rest <? n then Ret None
      else Ret (Some (firstn (Z.to_nat n) rest, skipn (Z.to_nat n) rest))
  end).

(** makeByteRange(dest, sz, off), SerializationUtil.cpp:21-26: WDT_CHECK on
    negative arguments; [sz - off] is converted to size_t, so [off > sz] gives
    a range reaching outside the buffer ([Undef] once read). *)
Definition makeByteRange (buf : list Z) (sz off : Z) : outcome (list Z) :=
  if off <? 0 then Crash
  else if sz <? 0 then Crash
  else if sz <? off then Undef
  else if zlen buf <? sz then Undef
  else Ret (slice buf off (sz - off)).

(** offset(newRange, oldRange), SerializationUtil.cpp:28-32, for a new range
    that is a suffix of the old one. *)
Definition range_offset (new_r old_r : list Z) : Z := zlen old_r - zlen new_r.

(** Type of an encoder with its value applied: buffer, limit, offset. *)
Definition encoder := list Z -> Z -> Z -> outcome encres.

(** C++ [E1 && E2] on the same (dest, max, off). *)
Definition enc_seq (E1 E2 : encoder) : encoder :=
  fun buf sz off => obind (E1 buf sz off) (fun r =>
    if er_ok r then E2 (er_buf r) sz (er_pos r) else Ret r).
(** The empty chain. *)
Definition enc_nil : encoder := fun buf sz off =>
  Ret {| er_ok := true; er_buf := buf; er_pos := off |}.

(** [D1(br, a) && D2(br, b)]. *)
Definition dbind {A B} (D : decoder A) (f : A -> decoder B) : decoder B := fun br =>
  obind (D br) (fun r => match r with
                         | None => Ret None
                         | Some (a, rest) => f a rest end).
Definition dret {A} (a : A) : decoder A := fun br => Ret (Some (a, br)).
Definition dfail {A} : decoder A := fun _ => Ret None.

(** The shape of every Protocol::decodeX(src, off, max): a range from
    makeByteRange(src, max, off), a decoder, and [off += offset(br, obr)]. *)
Definition decode_at {A} (D : decoder A) (buf : list Z) (off max : Z)
  : outcome (option (A * Z)) :=
  obind (makeByteRange buf max off) (fun br =>
  obind (D br) (fun r =>
  match r with
  | None => Ret None
  | Some (a, rest) => Ret (Some (a, off + range_offset rest br))
  end)).
