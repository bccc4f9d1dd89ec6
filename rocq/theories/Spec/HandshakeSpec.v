(** What the settings exchange must do. *)
From Verif Require Export Model.Handshake Spec.ProtocolSpec.

(** The bytes the thread has still to look at: those read and not used, then
    those to come. *)
Definition pending (c : rconn) : list Z := slice (rc_buf c) (rc_off c) (rc_num c) ++ in_bytes (rc_in c).
(** What a receiver whose transfer has the id [rp_id p] must make of the settings
    [s] of a sender of version [v], [rest] being what follows them. *)
Definition understood (p : rparams) (v : Z) (s : settings) (rest : list Z) (r : outcome (rconn * rnext)) : Prop :=
  exists c, r = Ret (c, if list_eq_dec Z.eq_dec (st_transferId s) (rp_id p)
                        then if st_sendFileChunks s then GoChunks else GoRead
                        else GoAbort ID_MISMATCH) /\
    (st_transferId s = rp_id p ->
     In (RSettings s) (rc_ev c) /\ (forall s', In (RSettings s') (rc_ev c) -> s' = s) /\
     rc_version c = v /\ rc_checksum c = st_enableChecksum s /\
     (st_sendFileChunks s = false -> pending c = rest)).
(** The pieces [l] in which the bytes arrive: when the receiver has the 256 bytes
    it waits for, it has the first [n] bytes. *)
Definition arrives_whole (n : Z) (l : list arrival) : Prop :=
  exists pre x r, l = pre ++ Arr x :: r /\ zlen (in_bytes pre) < 256 /\ n <= zlen (in_bytes pre ++ x).
