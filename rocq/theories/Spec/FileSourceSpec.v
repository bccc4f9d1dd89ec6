(** What the sender may read of a block, and the buffers it reads into. *)
From Verif Require Export Model.Bytes Model.FileSource.

(** A buffer of [B] bytes is usable; for direct reads it must be a whole number
    of disk blocks (WdtBase::checkAndUpdateBufferSize and Buffer in
    util/CommonImpl.cpp round it up). *)
Definition buffer_ok (B : Z) (aligned : bool) : Prop :=
  0 < B /\ (aligned = true -> Z.rem B kDiskBlockSize = 0).

(** [sent] is the beginning of the block [off, off+size) of [f]. *)
Definition prefix_ok (f : list Z) (off size : Z) (sent : list Z) : Prop :=
  sent = slice f off (zlen sent) /\ zlen sent <= size.
