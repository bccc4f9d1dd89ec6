(** What "safe" and "frame" mean for encoders and decoders. *)
From Verif Require Export Model.Varint.

(** Two byte arrays of the same length that agree outside [a, b). *)
Definition same_outside (buf buf' : list Z) (a b : Z) : Prop :=
  zlen buf' = zlen buf /\ forall i, i < a \/ b <= i -> rd buf' i = rd buf i.

(** [SafeDec D P]: on any bytes, [D] returns (no crash, no out of bounds read),
    an accepted value satisfies [P], and what is left is a strict suffix. *)
Definition SafeDec {A} (D : decoder A) (P : A -> Prop) : Prop :=
  forall br, bytes_ok br ->
  exists r, D br = Ret r /\
    forall v rest, r = Some (v, rest) ->
      P v /\ exists used, used <> [] /\ br = used ++ rest.
