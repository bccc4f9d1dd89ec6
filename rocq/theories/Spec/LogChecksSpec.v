(** When a session's checks fail, and what it leaves in the log. *)
From Verif Require Export Model.LogChecks Spec.LogSessionSpec.
Open Scope Z_scope.

Definition fails (w : option nat) : Prop := w <> None.
(** The sender is not the one of the log. *)
Definition other_sender (c : lscase) (m : tlm) : Prop :=
  sc_disabled c = false /\ tm_ip m <> [] /\ tm_ip m <> sc_peer c.
(** The directory can not be kept. *)
Definition must_invalidate (c : lscase) : Prop :=
  exists block resuming, sc_header c = Some (block, resuming) /\ (resuming = false \/ (sc_dirTree c = true /\ block = true)).
(** The directory is inconsistent when the session ends. *)
Definition left_inconsistent (c : lscase) (w : lswrites) (m : tlm) : Prop :=
  (tm_status m = INCONSISTENT_DIRECTORY \/ other_sender c m \/ must_invalidate c) /\
  (sc_header c = None \/ fails (wr_header w)).

(** An entry written alone. *)
Definition alone (e : log_entry) : Prop := match e with LHeader _ _ _ _ _ | LDirInval _ => True | _ => False end.
(** These bytes are the entries [es] and part of another. *)
Definition torn_off (d : list Z) (es : list log_entry) : Prop :=
  exists e k, entry_ok e /\ (k < length (entry_bytes e))%nat /\ d = log_bytes es ++ firstn k (entry_bytes e).

(** The times and names fit into entries. *)
Definition fit (ts : Z) (peer : list Z) (m : tlm) : Prop :=
  in_nat63 ts /\ in_nat63 (tm_config m) /\ zlen (tm_rid m) + zlen peer <= 4103 /\ zlen (tm_rid m) + zlen (tm_ip m) <= 4103.
(** When the process is stopped. *)
Definition stop_case (c : lscase) (w : lswrites) (m : tlm) : Prop :=
  (other_sender c m /\ fails (wr_ip w)) \/ (must_invalidate c /\ fails (wr_inval w)) \/
  (sc_success c = true /\ sc_dirTree c = false /\ left_inconsistent c w m).
