(** What a closed log must hold, told from the events of the session alone. *)
From Verif Require Export Model.LogSession Spec.LogSpec.
Open Scope Z_scope.

Definition entry_of (a : log_add) : log_entry :=
  match a with
  | AddCreation ts name q z => LCreate ts name q z
  | AddBlock ts q o z => LBlock ts q o z
  | AddResize ts q z => LResize ts q z
  | AddInvalidation ts q => LInval ts q
  end.
(** Entries about files. *)
Definition about_file (e : log_entry) : bool :=
  match e with LHeader _ _ _ _ _ | LDirInval _ => false | _ => true end.
Definition is_inval (e : log_entry) : bool := match e with LInval _ _ => true | _ => false end.

(** The entries the log takes: those of files once there is a header, and
    invalidations at any time. *)
Fixpoint taken (header : bool) (evs : list lev) : list log_entry :=
  match evs with
  | [] => []
  | LvAdd a :: r => (if header || is_inval (entry_of a) then [entry_of a] else []) ++ taken header r
  | LvHeader _ :: r => taken true r
  | _ :: r => taken header r
  end.
(** All that was to be logged. *)
Fixpoint asked (evs : list lev) : list log_entry :=
  match evs with [] => [] | LvAdd a :: r => entry_of a :: asked r | _ :: r => asked r end.
(** Nothing was to be logged before the header. *)
Fixpoint header_first (evs : list lev) : Prop :=
  match evs with
  | [] => True
  | LvAdd _ :: _ => False
  | LvHeader _ :: _ => True
  | _ :: r => header_first r
  end.
(** No write of the writer thread failed. *)
Definition no_failure (evs : list lev) : Prop := forall k, ~ In (LvWriteFail k) evs.
Definition times_ok (evs : list lev) : Prop :=
  forall ts, In (LvInvalidate ts) evs \/ In (LvHeader ts) evs -> in_nat63 ts.
Definition header_of (ts : Z) (peer : list Z) (m : tlm) : log_entry :=
  LHeader ts 2 (tm_rid m) peer (tm_config m).
(** A log manager after recovery: the file holds [es], nothing is in memory, no header
    of this session yet. *)
Record recovered (m : tlm) (es : list log_entry) : Prop := {
  re_open : tm_open m = true;
  re_file : holds (tm_file m) es;
  re_entries : tm_entries m = [];
  re_header : tm_headerWritten m = false
}.
(** A session that starts after a recovery that left [es] in the file, with values that
    fit the log's fields. *)
Record session_ok (ts : Z) (peer : list Z) (m : tlm) (es : list log_entry) (evs : list lev) : Prop := {
  so_recovered : recovered m es;
  so_start : in_nat63 ts;
  so_config : in_nat63 (tm_config m);
  so_header : zlen (tm_rid m) + zlen peer <= 4103;
  so_times : times_ok evs;
  so_asked : Forall entry_ok (asked evs)
}.
(** Every byte count that follows is in a log that was well formed before. *)
Definition ranges_ok (es : list log_entry) (evs : list lev) : Prop :=
  Forall entry_ok es /\ Forall block_in_range es /\ Forall block_in_range (asked evs).
(** A session that does not continue an earlier one, and has its header. *)
Definition begins_anew (evs : list lev) : Prop :=
  (exists t, In (LvInvalidate t) evs) /\ exists t, In (LvHeader t) evs.
