(** Which lists of received files are in the scope of the exchange theorems. *)
From Verif Require Export Spec.ProtocolSpec Model.ChunkList.

(** Well-formed entry with a name shorter than 32 GiB. *)
Definition encodable (f : file_chunks) : Prop :=
  file_chunks_ok f /\ zlen (fc_fileName f) < 2 ^ 35.

(** In addition, small enough for the receiver's buffer. *)
Definition sendable (bufSize : Z) (f : file_chunks) : Prop :=
  file_chunks_ok f /\ zlen (fc_fileName f) < 2 ^ 35 /\ maxEncodeLen f + 4 < bufSize.
