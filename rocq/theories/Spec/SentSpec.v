(** What a receiver must make of the stream of Model/SendStream.v. *)
From Verif Require Export Model.SendStream Spec.StreamSpec Spec.ProtocolSpec.

Definition sblock_ok (x : sblock) : Prop :=
  header_ok (sk_block x) /\ zlen (bd_fileName (sk_block x)) <= 190 /\ bytes_ok (bd_fileName (sk_block x)) /\
  is_byte (sk_status x) /\ bytes_ok (sk_data x) /\ bd_dataSize (sk_block x) = zlen (sk_data x) /\
  (bd_alloc (sk_block x) = TO_BE_DELETED -> bd_fileSize (sk_block x) = 0 /\ bd_dataSize (sk_block x) = 0) /\
  match sk_size x with Some n => in_nat63 n | None => True end.
Definition block_events (v : Z) (sum tags : bool) (x : sblock) : list revent :=
  match sk_size x with Some n => [RSize n] | None => [] end ++
  [RHeader (header_visible v (sk_block x)); RWrite (sk_data x); RStored] ++
  (if sum then [RFooter (to_i32 (crc32c (sk_data x) 0)); RVerified (header_visible v (sk_block x))]
   else if tags then [] else [RVerified (header_visible v (sk_block x))]).
Definition stream_events (v : Z) (s : settings) (tags : bool) (l : list sblock) (status blocks bytes : Z)
  : list revent :=
  RSettings s :: flat_map (block_events v (st_enableChecksum s) tags) l ++ [RDone status blocks bytes].
