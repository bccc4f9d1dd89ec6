(** Both ends of one transfer: the sender's threads with their blocks and
    histories (History.v), the receiver's threads (RecvSession.v), the
    connections between them port by port, and what the receiver has written to
    disk. Messages of a connection arrive in order, without loss, unless the
    connection breaks; a connection may break at any point. Blocks, checkpoints
    and DONE commands are the messages kept; settings, sizes and file chunk
    lists, which do not move blocks, can be read by the receiver at any time.

    Not modelled: the abort of a whole transfer, the renegotiation of the
    protocol version (SenderThread.cpp:869-927), and blocks the sender drops
    because the receiver already has them (they never enter the queue here). *)
From Verif Require Export Model.History Model.RecvSession.

(** How the receiver decides that a block arrived: nothing but its length;
    a checksum after each block; an encryption tag from time to time
    (ReceiverThread.cpp:482-491, 640-666). *)
Inductive mode := Plain | Checked | Tagged.
Definition is_plain (m : mode) : bool := match m with Plain => true | _ => false end.
Definition is_tagged (m : mode) : bool := match m with Tagged => true | _ => false end.

(** [tp_seqids]: the protocol version is at least CHECKPOINT_SEQ_ID_VERSION. *)
Record tparams := { tp_mode : mode; tp_seqids : bool; tp_ports : list Z }.

(** A checkpoint as the other side decodes it, Protocol.cpp:198-266
    (encodeCheckpoints, decodeCheckpoints; the codec is ProtocolCodec.v), for
    versions from CHECKPOINT_OFFSET_VERSION on. *)
Definition wire (P : tparams) (c : checkpoint) : checkpoint :=
  {| ck_port := ck_port c; ck_numBlocks := ck_numBlocks c;
     ck_lastBlockSeqId := if tp_seqids P then ck_lastBlockSeqId c else 0;
     ck_lastBlockOffset := if tp_seqids P then ck_lastBlockOffset c else 0;
     ck_lastBlockReceivedBytes := ck_lastBlockReceivedBytes c; ck_hasSeqId := tp_seqids P |}.

(** ** Connections *)

(** From sender to receiver. [UPart seq off size got]: a block of which only the
    first [got] bytes were written before the sender gave the connection up. *)
Inductive upmsg :=
| UBlock (seq off size : Z)
| UPart (seq off size got : Z)
| UDone.
(** From receiver to sender. *)
Inductive downmsg :=
| DLocal (c : checkpoint) | DErr (cs : list checkpoint) | DWait | DDone.

Record conn := { cn_up : list upmsg; cn_down : list downmsg }.
Definition conn_new : conn := {| cn_up := []; cn_down := [] |}.

(** The connections of one port: the one the receiver accepted last, and those
    in the backlog of its listening socket, oldest first. The sender uses the
    newest one. *)
Record chan := { ch_r : option conn; ch_new : list conn }.
Definition chan_new : chan := {| ch_r := None; ch_new := [] |}.

Definition send_up (c : conn) (m : upmsg) : conn :=
  {| cn_up := cn_up c ++ [m]; cn_down := cn_down c |}.
Definition put_up (ch : chan) (m : upmsg) : chan :=
  match rev (ch_new ch) with
  | c :: l => {| ch_r := ch_r ch; ch_new := rev l ++ [send_up c m] |}
  | [] => match ch_r ch with
          | Some c => {| ch_r := Some (send_up c m); ch_new := [] |}
          | None => ch
          end
  end.
(** Only the accepted connection can carry an answer. *)
Definition take_down (ch : chan) : option (downmsg * chan) :=
  match ch_new ch, ch_r ch with
  | [], Some c =>
      match cn_down c with
      | m :: r => Some (m, {| ch_r := Some {| cn_up := cn_up c; cn_down := r |}; ch_new := [] |})
      | [] => None
      end
  | _, _ => None
  end.
Definition dial (ch : chan) : chan := {| ch_r := ch_r ch; ch_new := ch_new ch ++ [conn_new] |}.

(** ** The sender's threads *)

(** States of SenderThread (SenderThread.h:25-43) that matter here. [SConnect
    first]: CONNECT, [first] while the thread's error code is still OK.
    [SSend]: from SEND_SETTINGS to SEND_BLOCKS. [SGlobal cs]: in PROCESS_ERR_CMD
    with [cs] left to handle. [SDone]: read DONE, waits for the end of the
    stream. [SOk], [SErr]: END. *)
Inductive sphase :=
| SConnect (first : bool) | SReadLocal | SSend | SReadCmd | SGlobal (cs : list checkpoint)
| SDone | SOk | SErr.
Definition ended (p : sphase) : bool := match p with SOk | SErr => true | _ => false end.

(** A piece of a file that was written: sequence id, offset, length. *)
Definition piece := (Z * Z * Z)%type.

Record world := {
  w_s : sender;
  w_sph : list sphase;
  w_r : rsession;
  w_chan : list chan;
  w_disk : list piece;
  w_init : bool;                  (* initFinished_ of the queue *)
  w_refused : bool;               (* a global checkpoint was INVALID_CHECKPOINT *)
  w_outs : list rout              (* what the receiver's threads did *)
}.
Definition world_init (P : tparams) : world :=
  let n := length (tp_ports P) in
  {| w_s := sender_init n; w_sph := repeat (SConnect true) n; w_r := rsession_init (tp_ports P);
     w_chan := repeat chan_new n; w_disk := []; w_init := false; w_refused := false; w_outs := [] |}.

Inductive tevent :=
| TDiscover (s : source)        (* a block enters the queue *)
| TInit                         (* discovery has finished *)
| TGhost (i : nat)              (* an attempt to connect that the sender gave up too early *)
| TConnect (i : nat)
| TFail (i : nat)               (* the sender's side of the connection broke *)
| TEnd (i : nat)                (* the sender's thread ends with an error *)
| TTake (i j : nat) (opened : bool)
| TSent (i : nat) (r : sent) (got : Z)
| TDone (i : nat)               (* queue empty: DONE is written *)
| TLocal (i : nat)              (* READ_LOCAL_CHECKPOINT *)
| TCmd (i : nat)                (* READ_RECEIVER_CMD *)
| TGlobal (i : nat)             (* one checkpoint of PROCESS_ERR_CMD *)
| TQuit (i : nat)               (* end of stream after DONE *)
| TRecv (i : nat) (a : rin)     (* the receiver's thread *)
| TAccept (i m : nat) (a : rin). (* it accepts, skipping [m] dead connections *)

Definition with_s (w : world) (s : sender) : world :=
  {| w_s := s; w_sph := w_sph w; w_r := w_r w; w_chan := w_chan w; w_disk := w_disk w;
     w_init := w_init w; w_refused := w_refused w; w_outs := w_outs w |}.
Definition with_ph (w : world) (i : nat) (p : sphase) : world :=
  {| w_s := w_s w; w_sph := set_nth (w_sph w) i p; w_r := w_r w; w_chan := w_chan w;
     w_disk := w_disk w; w_init := w_init w; w_refused := w_refused w; w_outs := w_outs w |}.
Definition with_chan (w : world) (i : nat) (c : chan) : world :=
  {| w_s := w_s w; w_sph := w_sph w; w_r := w_r w; w_chan := set_nth (w_chan w) i c;
     w_disk := w_disk w; w_init := w_init w; w_refused := w_refused w; w_outs := w_outs w |}.
Definition with_refused (w : world) (b : bool) : world :=
  {| w_s := w_s w; w_sph := w_sph w; w_r := w_r w; w_chan := w_chan w; w_disk := w_disk w;
     w_init := w_init w; w_refused := w_refused w || b; w_outs := w_outs w |}.
Definition with_recv (w : world) (r : rsession) (d : list piece) (o : list rout) : world :=
  {| w_s := w_s w; w_sph := w_sph w; w_r := r; w_chan := w_chan w; w_disk := w_disk w ++ d;
     w_init := w_init w; w_refused := w_refused w; w_outs := w_outs w ++ o |}.

Definition does (w : world) (a : sact) (k : sender -> world) : option (outcome world) :=
  match sn_step (w_s w) a with
  | Some (Ret s) => Some (Ret (k s))
  | Some Crash => Some Crash
  | Some Undef => Some Undef
  | None => None
  end.

(** setLocalCheckpoint / setGlobalCheckpoint answered INVALID_CHECKPOINT. *)
Definition refuses (s : sender) (i : nat) (c : checkpoint) (global : bool) : bool :=
  match nth_error (sn_hist s) i, nth_error (sn_stats s) i with
  | Some hi, Some ts => match setCheckpoint hi ts c global with
                        | Ret (e, _, _, _) => e =? INVALID_CHECKPOINT
                        | _ => false
                        end
  | _, _ => false
  end.

(** The thread a port belongs to (threadHistoriesMap_). *)
Fixpoint port_index (ports : list Z) (p : Z) : option nat :=
  match ports with
  | [] => None
  | q :: r => if q =? p then Some 0%nat else option_map S (port_index r p)
  end.

Definition after_global (cs : list checkpoint) : sphase :=
  match cs with [] => SSend | _ => SGlobal cs end.

(** What leaves the sender's socket for block [h], SenderThread.cpp:316-446. A
    block given up after its last byte is whole for the receiver. *)
Definition leaves (h : hsrc) (r : sent) (got : Z) : option upmsg :=
  let s := h_src h in
  match r with
  | SentAll _ => Some (UBlock (s_seqId s) (s_offset s) (s_size s))
  | SentPart _ _ _ =>
      if (0 <=? got) && (got <=? s_size s)
      then Some (if got =? s_size s then UBlock (s_seqId s) (s_offset s) (s_size s)
                 else UPart (s_seqId s) (s_offset s) (s_size s) got)
      else None
  end.

Definition sender_step (P : tparams) (w : world) (i : nat) (ph : sphase) (ch : chan) (e : tevent)
  : option (outcome world) :=
  let idle := match nth_error (sn_flight (w_s w)) i with Some None => true | _ => false end in
  match e, ph with
  (* connect, SenderThread.cpp:108-148 *)
  | TGhost _, SConnect _ => Some (Ret (with_chan w i (dial ch)))
  | TConnect _, SConnect first =>
      Some (Ret (with_ph (with_chan w i (dial ch)) i (if first then SSend else SReadLocal)))
  | TEnd _, SConnect _ => Some (Ret (with_ph w i SErr))
  (* a failed read or write: 159-165, 249-254, 458-463, 480-484, 688-692, 772-775 *)
  | TFail _, (SReadLocal | SReadCmd | SDone) => Some (Ret (with_ph w i (SConnect false)))
  | TFail _, SSend => if idle then Some (Ret (with_ph w i (SConnect false))) else None
  | TEnd _, (SReadLocal | SReadCmd) => Some (Ret (with_ph w i SErr))
  | TEnd _, SSend => if idle then Some (Ret (with_ph w i SErr)) else None
  (* sendBlocks, 282-313 *)
  | TTake _ j opened, SSend => does w (ATake i j opened) (with_s w)
  | TSent _ r got, SSend =>
      match nth_error (sn_flight (w_s w)) i with
      | Some (Some h) =>
          match leaves h r got with
          | Some m =>
              does w (ASend i r) (fun s =>
                let w1 := with_chan (with_s w s) i (put_up ch m) in
                match r with SentAll _ => w1 | _ => with_ph w1 i (SConnect false) end)
          | None => None
          end
      | _ => None
      end
  (* 286-289 and sendDoneCmd, 466-488 *)
  | TDone _, SSend =>
      match sn_queue (w_s w) with
      | [] => if w_init w && idle
              then Some (Ret (with_ph (with_chan w i (put_up ch UDone)) i SReadCmd)) else None
      | _ => None
      end
  (* readLocalCheckPoint, 151-206 *)
  | TLocal _, SReadLocal =>
      match take_down ch with
      | Some (DLocal c, ch') =>
          let w1 := with_chan w i ch' in
          if negb (match nth_error (tp_ports P) i with Some p => ck_port c =? p | None => false end)
          then Some (Ret (with_ph w1 i SErr))
          else if ck_numBlocks c =? -1 then Some (Ret (with_ph w1 i SReadCmd))
          else does w (ALocal i c) (fun s =>
                 with_ph (with_s w1 s) i (if refuses (w_s w) i c false then SErr else SSend))
      | Some (_, ch') => Some (Ret (with_ph (with_chan w i ch') i SErr))
      | None => None
      end
  (* readReceiverCmd, 685-723, with 725-828 *)
  | TCmd _, SReadCmd =>
      match take_down ch with
      | Some (DLocal c, ch') =>
          Some (Ret (with_ph (with_chan w i ch') i
            (if (ck_numBlocks c =? 0) && (ck_lastBlockReceivedBytes c =? 0) then SReadCmd else SErr)))
      | Some (DWait, ch') => does w (AAckAll i) (fun s => with_chan (with_s w s) i ch')
      | Some (DErr cs, ch') =>
          does w (AAckAll i) (fun s => with_ph (with_chan (with_s w s) i ch') i (after_global cs))
      | Some (DDone, ch') =>
          does w (AAckAll i) (fun s => with_ph (with_chan (with_s w s) i ch') i SDone)
      | None => None
      end
  (* handleGlobalCheckpoint, util/ThreadTransferHistory.cpp:273-284, which waits
     for the end of that port's thread (59-65); the status is ignored *)
  | TGlobal _, SGlobal (c :: cs) =>
      match port_index (tp_ports P) (ck_port c) with
      | None => Some (Ret (with_ph w i (after_global cs)))
      | Some k =>
          match nth_error (w_sph w) k with
          | Some q =>
              if ended q
              then does w (AGlobal k c) (fun s =>
                     with_ph (with_refused (with_s w s) (refuses (w_s w) k c true)) i (after_global cs))
              else None
          | None => None
          end
      end
  (* 777-778 *)
  | TQuit _, SDone => Some (Ret (with_ph w i SOk))
  | _, _ => None
  end.

(** ** The receiver's threads *)

(** The commands that arrive on a connection: what is left of it, and what the
    receiver writes to disk. A broken block is not taken off: the receiver reads
    nothing more from that connection. *)
Definition feed (m : mode) (up : list upmsg) (a : rin) : option (list upmsg * list piece) :=
  let written s o k : list piece := if 0 <? k then [(s, o, k)] else [] in
  match a with
  | IFirst | IAccept => None
  | ICmd (CFile seq off r) =>
      match up, r with
      | UBlock s o n :: rest, FVerified =>
          if (s =? seq) && (o =? off) && negb (is_tagged m) then Some (rest, [(s, o, n)]) else None
      | UBlock s o n :: rest, FStored k =>
          if (s =? seq) && (o =? off) && (k =? n) && is_tagged m then Some (rest, [(s, o, n)]) else None
      | (UBlock s o n | UPart s o _ n) :: _, FBroken k credit _ _ =>
          if (s =? seq) && (o =? off) && (0 <=? k) && (k <=? n) && Bool.eqb credit (is_plain m)
          then Some (up, written s o k) else None
      | _, _ => None
      end
  | ICmd (CFileShort | CFileBad) =>
      match up with (UBlock _ _ _ | UPart _ _ _ _) :: _ => Some (up, []) | _ => None end
  | ICmd CDone => match up with UDone :: rest => Some (rest, []) | _ => None end
  | ICmd CTag => if is_tagged m then Some (up, []) else None
  | _ => Some (up, [])
  end.

(** What a step puts on the wire. *)
Definition answers (P : tparams) (o : list rout) : list downmsg :=
  flat_map (fun x => match x with
                     | OLocal _ c => [DLocal (wire P c)]
                     | OTold _ cs => [DErr (map (wire P) cs)]
                     | OWait _ => [DWait]
                     | ODone _ => [DDone]
                     | _ => []
                     end) o.

(** Commands are read in READ_NEXT_CMD and connections accepted in the two
    accepting states only. (A step of rs_step on a thread that is ending takes
    any answer.) *)
Definition hears (w : world) (i : nat) (a : rin) : bool :=
  match nth_error (rs_threads (w_r w)) i with
  | None => false
  | Some t => match a, rt_ph t with
              | ICmd _, PRead | IFirst, PFirst | IAccept, PAccept => true
              | (ICmd _ | IFirst | IAccept), _ => false
              | _, _ => true
              end
  end.

Definition recv_step (P : tparams) (w : world) (i : nat) (ch : chan) (a : rin) : option (outcome world) :=
  let c := match ch_r ch with Some c => c | None => conn_new end in
  match feed (tp_mode P) (cn_up c) a with
  | None => None
  | Some (up', d) =>
      match rs_step (w_r w) (EThread i a) with
      | Some (Ret (r, o)) =>
          let ch' := match ch_r ch with
                     | Some c => {| ch_r := Some {| cn_up := up'; cn_down := cn_down c ++ answers P o |};
                                    ch_new := ch_new ch |}
                     | None => ch
                     end in
          Some (Ret (with_recv (with_chan w i ch') r d o))
      | Some Crash => Some Crash
      | Some Undef => Some Undef
      | None => None
      end
  end.

Definition accept_step (w : world) (i m : nat) (ch : chan) (a : rin) : option (outcome world) :=
  match a, skipn m (ch_new ch) with
  | (IFirst | IAccept), c :: l =>
      match rs_step (w_r w) (EThread i a) with
      | Some (Ret (r, o)) =>
          Some (Ret (with_recv (with_chan w i {| ch_r := Some c; ch_new := l |}) r [] o))
      | Some Crash => Some Crash
      | Some Undef => Some Undef
      | None => None
      end
  | _, _ => None
  end.

Definition port_of (e : tevent) : option nat :=
  match e with
  | TDiscover _ | TInit => None
  | TGhost i | TConnect i | TFail i | TEnd i | TTake i _ _ | TSent i _ _ | TDone i | TLocal i
  | TCmd i | TGlobal i | TQuit i | TRecv i _ | TAccept i _ _ => Some i
  end.

Definition t_step (P : tparams) (w : world) (e : tevent) : option (outcome world) :=
  match e with
  | TDiscover s => if w_init w then None else does w (ADiscover s) (with_s w)
  | TInit => Some (Ret {| w_s := w_s w; w_sph := w_sph w; w_r := w_r w; w_chan := w_chan w;
                          w_disk := w_disk w; w_init := true; w_refused := w_refused w;
                          w_outs := w_outs w |})
  | _ =>
      match port_of e with
      | None => None
      | Some i =>
          match nth_error (w_sph w) i, nth_error (w_chan w) i with
          | Some ph, Some ch =>
              match e with
              | TRecv _ a => if hears w i a then recv_step P w i ch a else None
              | TAccept _ m a => if hears w i a then accept_step w i m ch a else None
              | _ => sender_step P w i ph ch e
              end
          | _, _ => None
          end
      end
  end.

Fixpoint t_run (P : tparams) (w : world) (l : list tevent) : option (outcome world) :=
  match l with
  | [] => Some (Ret w)
  | e :: r => match t_step P w e with
              | Some (Ret w') => t_run P w' r
              | o => o
              end
  end.
