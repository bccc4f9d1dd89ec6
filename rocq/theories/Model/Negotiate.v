(** How the threads of a sender settle a version mismatch: SenderThread.cpp:829-1000
    (processAbortCmd, processVersionMismatch, setFooterType, start), the parts of
    connect() that look at the abort code (SenderThread.cpp:108-140), Sender.cpp:88-102 and
    WdtBase.cpp:31-64, 85-105.  The barrier and the funnel are those of
    Model/ThreadsCtl.v, the abort code that of Model/Report.v.

    One step is one access to something shared.  Everything else a thread does (connecting,
    sending, reading replies) is one state that takes any time and returns any way.

    Left out: a thread whose buffer cannot be allocated (it never deregisters; property
    C37 shows what follows), and what handleVersionMismatch does to the histories: here it
    only says whether something had been acknowledged. *)
From Verif Require Export Model.ThreadsCtl Model.Report Model.ProtocolCodec.
Open Scope Z_scope.

(** ProtoNegotiationStatus, Sender.h:23-27. *)
Inductive vstat := VWait | VResolved | VFailed.

(** SenderState, SenderThread.h:23-40, as far as it matters here. *)
Inductive nstate := NOther | NMismatch | NEnd.

(** Where the thread that got FUNNEL_START is, SenderThread.cpp:890-923. *)
Inductive nwork :=
| WBegin                 (* about to set V_MISMATCH_FAILED, 892 *)
| WCollect               (* about to look at the histories and versions, 893-911 *)
| WVersion (v : Z)       (* about to set the version and the footer, 915-918 *)
| WResolve               (* about to set V_MISMATCH_RESOLVED, 919 *)
| WClear                 (* about to clear the abort code, 920 *)
| WNotify (s : nstate).  (* about to call notifySuccess and return [s] *)

(** Where a thread is. *)
Inductive npc :=
| PTop (s : nstate)      (* head of the loop in start(), 971 *)
| PBusy                  (* in the function of a state other than PROCESS_VERSION_MISMATCH *)
| PEnter                 (* entered processVersionMismatch, 869 *)
| PHit                   (* about to call barrier->execute(), 884 *)
| PBarrier               (* in barrier->execute() *)
| PFunnel                (* in the loop around the funnel, 887 *)
| PWork (k : nwork)
| PDone                  (* left the loop, about to deregister, 994 *)
| PGone.

(** A thread: threadProtocolVersion_, whether footerType_ is CHECKSUM_FOOTER,
    negotiatedProtocol_, whether the local error code is ABORT. *)
Record nthread := { n_pc : npc; n_ver : Z; n_footer : bool; n_neg : Z; n_abort : bool }.
Definition at_pc (t : nthread) (p : npc) : nthread :=
  {| n_pc := p; n_ver := n_ver t; n_footer := n_footer t; n_neg := n_neg t; n_abort := n_abort t |}.
Definition at_pc_aborted (t : nthread) (p : npc) (a : bool) : nthread :=
  {| n_pc := p; n_ver := n_ver t; n_footer := n_footer t; n_neg := n_neg t; n_abort := a |}.

(** The sender: abortCode_ (WdtBase.h:196), protoNegotiationStatus_ (Sender.h:212), the
    protocol version of its request, the barrier and the funnel; [g_offers] are the
    versions it was offered, for the statements. *)
Record nsys := {
  g_abort : Z; g_status : vstat; g_version : Z;
  g_bar : barrier; g_fun : funnel; g_thr : list nthread; g_offers : list Z
}.

(** setFooterType, SenderThread.cpp:944-952; [checksum] is the option enable_checksum. *)
Definition footer_for (checksum : bool) (v : Z) : bool := (CHECKSUM_VERSION <=? v) && checksum.

(** [n] threads, started with version [v], SenderThread.cpp:954-969. *)
Definition nsys_init (checksum : bool) (n : nat) (v : Z) : nsys :=
  {| g_abort := OK; g_status := VWait; g_version := v; g_bar := barrier_init n; g_fun := funnel_init n;
     g_thr := repeat {| n_pc := PTop NOther; n_ver := v; n_footer := footer_for checksum v; n_neg := -1; n_abort := false |} n;
     g_offers := [] |}.

(** The version the threads negotiated, SenderThread.cpp:897-910: [None] if they differ. *)
Fixpoint pick (acc : Z) (l : list Z) : option Z :=
  match l with
  | [] => Some acc
  | v :: r => if 0 <? v
              then if (0 <? acc) && negb (acc =? v) then None else pick v r
              else pick acc r
  end.

Definition g_set (s : nsys) (i : nat) (t : nthread) : nsys :=
  {| g_abort := g_abort s; g_status := g_status s; g_version := g_version s; g_bar := g_bar s;
     g_fun := g_fun s; g_thr := set_nth (g_thr s) i t; g_offers := g_offers s |}.
Definition g_set_abort (s : nsys) (a : Z) : nsys :=
  {| g_abort := a; g_status := g_status s; g_version := g_version s; g_bar := g_bar s;
     g_fun := g_fun s; g_thr := g_thr s; g_offers := g_offers s |}.
Definition g_set_status (s : nsys) (v : vstat) : nsys :=
  {| g_abort := g_abort s; g_status := v; g_version := g_version s; g_bar := g_bar s;
     g_fun := g_fun s; g_thr := g_thr s; g_offers := g_offers s |}.
Definition g_set_version (s : nsys) (v : Z) : nsys :=
  {| g_abort := g_abort s; g_status := g_status s; g_version := v; g_bar := g_bar s;
     g_fun := g_fun s; g_thr := g_thr s; g_offers := g_offers s |}.
Definition g_set_bar (s : nsys) (b : barrier) : nsys :=
  {| g_abort := g_abort s; g_status := g_status s; g_version := g_version s; g_bar := b;
     g_fun := g_fun s; g_thr := g_thr s; g_offers := g_offers s |}.
Definition g_set_fun (s : nsys) (f : funnel) : nsys :=
  {| g_abort := g_abort s; g_status := g_status s; g_version := g_version s; g_bar := g_bar s;
     g_fun := f; g_thr := g_thr s; g_offers := g_offers s |}.
Definition g_add_offer (s : nsys) (v : Z) : nsys :=
  {| g_abort := g_abort s; g_status := g_status s; g_version := g_version s; g_bar := g_bar s;
     g_fun := g_fun s; g_thr := g_thr s; g_offers := v :: g_offers s |}.

(** processAbortCmd after an ABORT command with version [v] and code [c] was read,
    SenderThread.cpp:845-867: what becomes of the thread. *)
Definition abort_cmd (t : nthread) (v c : Z) : nthread :=
  if (c =? VERSION_MISMATCH) && (negotiateProtocol v (n_ver t) =? v)
  then {| n_pc := PTop NMismatch; n_ver := n_ver t; n_footer := n_footer t; n_neg := v; n_abort := true |}
  else at_pc_aborted t (PTop NEnd) true.

(** Steps inside processVersionMismatch and around it, by thread [i]; [None]: a WDT_CHECK
    failed. *)
Inductive nint (checksum : bool) : nsys -> option nsys -> Prop :=
(* while (state != END), 971, and what follows the loop *)
| N_leave s i t : nth_error (g_thr s) i = Some t -> n_pc t = PTop NEnd -> nint checksum s (Some (g_set s i (at_pc t PDone)))
| N_gone s i t b : nth_error (g_thr s) i = Some t -> n_pc t = PDone -> barrier_deregister (g_bar s) i = Ret b ->
    nint checksum s (Some (g_set_bar (g_set s i (at_pc t PGone)) b))
| N_gone_crash s i t : nth_error (g_thr s) i = Some t -> n_pc t = PDone -> barrier_deregister (g_bar s) i = Crash -> nint checksum s None
(* an abort code other than VERSION_MISMATCH, or the application's abort checker, or a
   global checkpoint: the loop is left, 972-980 *)
| N_break s i t x : nth_error (g_thr s) i = Some t -> n_pc t = PTop x -> x <> NEnd ->
    nint checksum s (Some (g_set s i (at_pc_aborted t PDone true)))
| N_mismatch s i t x : nth_error (g_thr s) i = Some t -> n_pc t = PTop x -> x <> NEnd -> g_abort s = VERSION_MISMATCH ->
    nint checksum s (Some (g_set s i (at_pc_aborted t PEnter true)))
| N_run s i t x : nth_error (g_thr s) i = Some t -> n_pc t = PTop x -> x <> NEnd -> g_abort s = OK ->
    nint checksum s (Some (g_set s i (at_pc t (match x with NMismatch => PEnter | _ => PBusy end))))
(* processVersionMismatch: 871-880 *)
| N_unaborted s i t : nth_error (g_thr s) i = Some t -> n_pc t = PEnter -> n_abort t = false -> nint checksum s None
| N_failed s i t : nth_error (g_thr s) i = Some t -> n_pc t = PEnter -> g_status s = VFailed -> nint checksum s None
| N_resolved s i t : nth_error (g_thr s) i = Some t -> n_pc t = PEnter -> n_abort t = true -> g_status s = VResolved ->
    nint checksum s (Some (g_set s i (at_pc t (PTop NEnd))))
| N_wait s i t : nth_error (g_thr s) i = Some t -> n_pc t = PEnter -> n_abort t = true -> g_status s = VWait ->
    nint checksum s (Some (g_set s i (at_pc t PHit)))
(* the barrier, 884 *)
| N_hit s i t b : nth_error (g_thr s) i = Some t -> n_pc t = PHit -> barrier_execute (g_bar s) i = Ret b ->
    nint checksum s (Some (g_set_bar (g_set s i (at_pc t PBarrier)) b))
| N_hit_crash s i t : nth_error (g_thr s) i = Some t -> n_pc t = PHit -> barrier_execute (g_bar s) i = Crash -> nint checksum s None
| N_woken s i t : nth_error (g_thr s) i = Some t -> n_pc t = PBarrier -> nth_error (b_st (g_bar s)) i = Some BWoken ->
    nint checksum s (Some (g_set_bar s (barrier_woken (g_bar s) i)))
| N_passed s i t : nth_error (g_thr s) i = Some t -> n_pc t = PBarrier -> nth_error (b_st (g_bar s)) i = Some BPassed ->
    nint checksum s (Some (g_set_fun (g_set s i (at_pc t PFunnel)) (f_set (g_fun s) i FLoop)))
(* the funnel, 887-941 *)
| N_get s i t : nth_error (g_thr s) i = Some t -> n_pc t = PFunnel -> nth_error (f_st (g_fun s)) i = Some FLoop ->
    nint checksum s (Some (g_set_fun (g_set s i (at_pc t (match f_status (g_fun s) with FStart => PWork WBegin | _ => PFunnel end)))
                     (funnel_getStatus (g_fun s) i)))
| N_fwait s i t : nth_error (g_thr s) i = Some t -> n_pc t = PFunnel -> nth_error (f_st (g_fun s)) i = Some FSawProgress ->
    nint checksum s (Some (g_set_fun s (funnel_wait (g_fun s) i)))
| N_fwoken s i t : nth_error (g_thr s) i = Some t -> n_pc t = PFunnel -> nth_error (f_st (g_fun s)) i = Some FWoken ->
    nint checksum s (Some (g_set_fun s (f_set (g_fun s) i FLoop)))
| N_end_wait s i t : nth_error (g_thr s) i = Some t -> n_pc t = PFunnel -> nth_error (f_st (g_fun s)) i = Some FSawEnd ->
    g_status s = VWait -> nint checksum s None
| N_end_failed s i t : nth_error (g_thr s) i = Some t -> n_pc t = PFunnel -> nth_error (f_st (g_fun s)) i = Some FSawEnd ->
    g_status s = VFailed -> nint checksum s (Some (g_set s i (at_pc t (PTop NEnd))))
| N_end_resolved s i t : nth_error (g_thr s) i = Some t -> n_pc t = PFunnel -> nth_error (f_st (g_fun s)) i = Some FSawEnd ->
    g_status s = VResolved ->
    nint checksum s (Some (g_set s i {| n_pc := PTop NOther; n_ver := g_version s; n_footer := n_footer t; n_neg := n_neg t; n_abort := n_abort t |}))
(* the thread that settles it, 892-922 *)
| N_begin s i t : nth_error (g_thr s) i = Some t -> n_pc t = PWork WBegin ->
    nint checksum s (Some (g_set_status (g_set s i (at_pc t (PWork WCollect))) VFailed))
| N_acked s i t : nth_error (g_thr s) i = Some t -> n_pc t = PWork WCollect ->
    nint checksum s (Some (g_set s i (at_pc t (PWork (WNotify NEnd)))))
| N_differ s i t : nth_error (g_thr s) i = Some t -> n_pc t = PWork WCollect -> pick 0 (map n_neg (g_thr s)) = None ->
    nint checksum s (Some (g_set s i (at_pc t (PWork (WNotify NEnd)))))
| N_none s i t v : nth_error (g_thr s) i = Some t -> n_pc t = PWork WCollect -> pick 0 (map n_neg (g_thr s)) = Some v -> v <= 0 ->
    nint checksum s None
| N_agree s i t v : nth_error (g_thr s) i = Some t -> n_pc t = PWork WCollect -> pick 0 (map n_neg (g_thr s)) = Some v -> 0 < v ->
    nint checksum s (Some (g_set s i (at_pc t (PWork (WVersion v)))))
| N_version s i t v : nth_error (g_thr s) i = Some t -> n_pc t = PWork (WVersion v) ->
    nint checksum s (Some (g_set_version (g_set s i {| n_pc := PWork WResolve; n_ver := v; n_footer := footer_for checksum v;
                                                       n_neg := n_neg t; n_abort := n_abort t |}) v))
| N_resolve s i t : nth_error (g_thr s) i = Some t -> n_pc t = PWork WResolve ->
    nint checksum s (Some (g_set_status (g_set s i (at_pc t (PWork WClear))) VResolved))
| N_clear s i t : nth_error (g_thr s) i = Some t -> n_pc t = PWork WClear ->
    nint checksum s (Some (g_set_abort (g_set s i (at_pc t (PWork (WNotify NOther)))) (do_abort_op (g_abort s) ClearAbort)))
| N_notify s i t x : nth_error (g_thr s) i = Some t -> n_pc t = PWork (WNotify x) ->
    nint checksum s (Some (g_set_fun (g_set s i (at_pc t (PTop x))) (funnel_success (g_fun s) i))).

(** What comes from outside: the functions of the other states return, the peer sends
    ABORT, somebody calls WdtBase::abort, a sleeper wakes up for no reason.  [honest] says
    which versions a peer may offer to a thread that runs a version. *)
Inductive next (honest : Z -> Z -> Prop) : nsys -> nsys -> Prop :=
| X_return s i t x a : nth_error (g_thr s) i = Some t -> n_pc t = PBusy -> x <> NMismatch ->
    next honest s (g_set s i (at_pc_aborted t (PTop x) a))
(* connect() gives up because of the abort code, 129-135 *)
| X_connect s i t : nth_error (g_thr s) i = Some t -> n_pc t = PBusy -> g_abort s = VERSION_MISMATCH ->
    next honest s (g_set s i (at_pc_aborted t (PTop NMismatch) true))
| X_abort s i t v : nth_error (g_thr s) i = Some t -> n_pc t = PBusy -> honest (n_ver t) v ->
    next honest s (g_add_offer (g_set_abort (g_set s i (abort_cmd t v VERSION_MISMATCH)) (do_abort_op (g_abort s) (Abort VERSION_MISMATCH))) v)
| X_abort_other s i t v c : nth_error (g_thr s) i = Some t -> n_pc t = PBusy -> c <> VERSION_MISMATCH ->
    next honest s (g_set_abort (g_set s i (abort_cmd t v c)) (do_abort_op (g_abort s) (Abort c)))
| X_user s c : c <> VERSION_MISMATCH -> next honest s (g_set_abort s (do_abort_op (g_abort s) (Abort c)))
| X_bar s i : nth_error (b_st (g_bar s)) i = Some BAsleep -> next honest s (g_set_bar s (b_set (g_bar s) i BWoken))
| X_fun s i : nth_error (f_st (g_fun s)) i = Some FAsleep -> next honest s (g_set_fun s (f_set (g_fun s) i FWoken)).

Definition nstep checksum honest (s : nsys) (r : option nsys) : Prop :=
  nint checksum s r \/ exists s', r = Some s' /\ next honest s s'.
Inductive nreach (checksum : bool) (honest : Z -> Z -> Prop) (n : nat) (v : Z) : nsys -> Prop :=
| NR0 : nreach checksum honest n v (nsys_init checksum n v)
| NRS s s' : nreach checksum honest n v s -> nstep checksum honest s (Some s') -> nreach checksum honest n v s'.

(** [k] steps without help from outside. *)
Inductive nrun (checksum : bool) : nat -> nsys -> nsys -> Prop :=
| NRun0 s : nrun checksum 0 s s
| NRunS k s1 s2 s3 : nint checksum s1 (Some s2) -> nrun checksum k s2 s3 -> nrun checksum (S k) s1 s3.

(** ** Init *)

(** WdtBase::negotiateProtocol, WdtBase.cpp:85-96; the version of the request is 64 bits
    wide, [protocol] is an int. *)
Definition negotiate_request (version : Z) : outcome Z :=
  let p := to_i32 version in
  if p <=? 0 then Crash else Ret (negotiateProtocol p 32).
(** WdtBase::validateTransferRequest, WdtBase.cpp:142-158: the error code of the request,
    of which [dir] and [ports] say that there are some. *)
Definition validate_request (code version : Z) (dir ports : bool) : Z :=
  if negb (code =? OK) then code
  else if negb dir || (version <? 0) || negb ports then INVALID_REQUEST else OK.
(** Sender::init, Sender.cpp:48-77: the code and the version. *)
Definition sender_init (code version : Z) (dir ports host : bool) : outcome (Z * Z) :=
  obind (negotiate_request version) (fun v =>
  let c := validate_request code v dir ports in
  Ret (if (c =? OK) && negb host then INVALID_REQUEST else c, v)).
(** Receiver::init, Receiver.cpp:112-160, up to the negotiation. *)
Definition receiver_init (code version : Z) (dir ports : bool) : outcome (Z * Z) :=
  let c := validate_request code version dir ports in
  if negb (c =? OK) then Ret (c, version)
  else obind (negotiate_request version) (fun v => Ret (OK, v)).
