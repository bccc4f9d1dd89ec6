(** Common vocabulary of the model: outcomes, bytes, machine integers and
    byte arrays. *)
From Coq Require Export List ZArith Lia Bool.
Export ListNotations.
Open Scope Z_scope.

(** Outcome of running a piece of the C++ code.
    - [Ret a]: returns normally;
    - [Crash]: a failed WDT_CHECK, which is glog CHECK (Wdt*.h / ErrorCodes.h:
      WDT_CHECK aborts the process);
    - [Undef]: undefined behaviour (out of bounds access, null dereference). *)
Inductive outcome (A : Type) : Type :=
| Ret (a : A)
| Crash
| Undef.
Arguments Ret {A} _.
Arguments Crash {A}.
Arguments Undef {A}.

Definition obind {A B} (m : outcome A) (f : A -> outcome B) : outcome B :=
  match m with
  | Ret a => f a
  | Crash => Crash
  | Undef => Undef
  end.

(** A byte ([char] seen as unsigned) is a [Z] in [0,256). *)
Definition is_byte (b : Z) : Prop := 0 <= b < 256.
Definition is_byteb (b : Z) : bool := (0 <=? b) && (b <? 256).
Definition bytes_ok (l : list Z) : Prop := Forall is_byte l.

(** Conversion to uint64_t / int64_t (modular, two's complement). *)
Definition u64 (x : Z) : Z := x mod 2 ^ 64.
Definition s64 (x : Z) : Z :=
  let y := x mod 2 ^ 64 in if y <? 2 ^ 63 then y else y - 2 ^ 64.

(** Conversion to int32_t. *)
Definition to_i32 (x : Z) : Z := (x + 2 ^ 31) mod 2 ^ 32 - 2 ^ 31.

Definition in_u64 (x : Z) : Prop := 0 <= x < 2 ^ 64.
Definition in_i64 (x : Z) : Prop := - 2 ^ 63 <= x < 2 ^ 63.
Definition in_i32 (x : Z) : Prop := - 2 ^ 31 <= x < 2 ^ 31.
(** Values accepted by the "C" (non-negative) encoders. *)
Definition in_nat63 (x : Z) : Prop := 0 <= x < 2 ^ 63.
Definition in_nat31 (x : Z) : Prop := 0 <= x < 2 ^ 31.

(** Length of a list as [Z]. *)
Definition zlen {A} (l : list A) : Z := Z.of_nat (length l).

(** [rd l i]: the element at index [i]; [None] is an out of bounds read. *)
Definition rd {A} (l : list A) (i : Z) : option A :=
  if i <? 0 then None else nth_error l (Z.to_nat i).

(** [upd l i b]: store at index [i]; [None] is an out of bounds write. *)
Definition upd {A} (l : list A) (i : Z) (b : A) : option (list A) :=
  if (0 <=? i) && (i <? zlen l)
  then Some (firstn (Z.to_nat i) l ++ b :: skipn (S (Z.to_nat i)) l)
  else None.

(** [slice l a n]: the [n] elements starting at index [a]. *)
Definition slice {A} (l : list A) (a n : Z) : list A :=
  firstn (Z.to_nat n) (skipn (Z.to_nat a) l).

(** [splice l i bs]: [l] with the elements at [i, i + |bs|) replaced by [bs]
    (used in specifications; in range when [0 <= i] and [i + |bs| <= |l|]). *)
Definition splice {A} (l : list A) (i : Z) (bs : list A) : list A :=
  firstn (Z.to_nat i) l ++ bs ++ skipn (Z.to_nat i + length bs) l.
