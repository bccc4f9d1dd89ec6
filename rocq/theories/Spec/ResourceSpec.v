(** What the quotas of the resource controller must guarantee. *)
From Verif Require Export Model.Resource Spec.Sums.
Open Scope Z_scope.

(** Transfers of a side in namespace controller [k]; it is registered or not. *)
Definition live_in (sd : side) (s : rsys) (k : nat) : Z :=
  match nth_error (rs_heap (ry_share s)) k with Some nc => zlen (po_map (pool_of sd nc)) | None => 0 end.
Definition is_registered (s : rsys) (k : nat) : bool := existsb (fun e => Nat.eqb (snd e) k) (rs_map (ry_share s)).
Definition controllers (s : rsys) : list nat := seq 0 (length (rs_heap (ry_share s))).
Definition live (sd : side) (s : rsys) : Z := zsum (live_in sd s) (controllers s).
Definition registered (sd : side) (s : rsys) : Z :=
  zsum (fun k => if is_registered s k then live_in sd s k else 0) (controllers s).
Definition stranded (sd : side) (s : rsys) : Z :=
  zsum (fun k => if is_registered s k then 0 else live_in sd s k) (controllers s).
(** Slots a call has counted but not yet filled, or emptied but not yet given back. *)
Definition op_flight (sd : side) (o : rop) : Z :=
  match o with
  | OCreate2 sd' _ _ _ | OCreate3 sd' _ _ _ => match sd, sd' with Snd, Snd | Rcv, Rcv => 1 | _, _ => 0 end
  | ORelease3 sd' _ _ n => match sd, sd' with Snd, Snd | Rcv, Rcv => n | _, _ => 0 end
  | ODereg3 _ a => match sd with Snd => a | Rcv => 0 end
  | ODereg4 _ a b => match sd with Snd => a | Rcv => b end
  | _ => 0
  end.
Definition in_flight (sd : side) (s : rsys) : Z :=
  zsum (fun t => match t with RBusy _ _ o => op_flight sd o | RIdle => 0 end) (ry_threads s).
Definition counter (sd : side) (s : rsys) : Z := g_num (get sd (rs_glob (ry_share s))).
Definition limit (sd : side) (s : rsys) : Z := g_max (get sd (rs_glob (ry_share s))).
Definition all_idle (s : rsys) : Prop := forall t, In t (ry_threads s) -> t = RIdle.

(** Calls that keep the limit of a side, or the one of a namespace, within [m]. *)
Definition within (sd : side) (m : Z) (c : rcall) : Prop :=
  match c with CLimit sd' n => sd' = sd -> 0 < n <= m | _ => True end.
Definition ns_within (sd : side) (ns m : Z) (c : rcall) : Prop :=
  match c with CNsLimit sd' ns' n => sd' = sd -> ns' = ns -> 0 < n <= m | _ => True end.
(** Calls that take no namespace away. *)
Definition keeps (c : rcall) : Prop := match c with CDereg _ | CShutdown => False | _ => True end.

(** Call [c] returned; it has a slot in a registered namespace. *)
Definition returned_call (s : rsys) (c : nat) : Prop := exists k code, In (c, k, code) (ry_log s).
Definition has_slot (sd : side) (s : rsys) (c : nat) : Prop :=
  exists ns k nc id o x, lookup ns (rs_map (ry_share s)) = Some k /\
    nth_error (rs_heap (ry_share s)) k = Some nc /\ In (id, o) (po_map (pool_of sd nc)) /\
    nth_error (rs_objs (ry_share s)) o = Some x /\ ob_call x = c.

(** The transfers a release is about; [stale]: those that are stale. *)
Definition asked (w : which) (stale : list Z) (id : Z) : Prop :=
  match w with One x => id = x | All => True | Stale => In id stale end.
(** What a call that returns at [k] may say: one that gives up does not say OK, and
    wdtSend and wdtReceiveFinish pass on what the transfer said. *)
Definition says (k : kont) (code : Z) : Prop :=
  match k with
  | KSendInit _ _ _ | KRecvInit _ => code <> OK
  | KSendEnd _ _ _ c | KFinEnd c => code = c
  | KFinGet _ _ => code = NOT_FOUND
  | KSendRel _ _ _ | KSendRun _ _ _ | KFin _ _ _ => False
  | _ => True
  end.
