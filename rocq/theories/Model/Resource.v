(** WdtResourceController.cpp and the calls of Wdt.cpp that use it: the quotas on
    senders and receivers, with any number of threads calling at once.

    One step is one section under a lock: the code takes the lock of the resource
    controller and the lock of a namespace controller, never the former while
    holding the latter, and everything it shares is read and written under one of
    them. Simplified: names and identifiers are numbers (the code only compares
    them); the objects made are numbers too, with what Wdt.cpp asks of them; the
    maps are lists in some order; counters do not overflow; the throttler is left
    out (Model/Throttler.v). *)
From Verif Require Export Model.Stats Model.QueueMonitor.
Open Scope Z_scope.

Inductive side := Snd | Rcv.
(** Everything is there twice. *)
Record two (A : Type) := Two { at_snd : A; at_rcv : A }.
Arguments Two {A}. Arguments at_snd {A}. Arguments at_rcv {A}.
Definition get {A} (sd : side) (p : two A) : A := match sd with Snd => at_snd p | Rcv => at_rcv p end.
Definition put {A} (sd : side) (p : two A) (x : A) : two A :=
  match sd with Snd => Two x (at_rcv p) | Rcv => Two (at_snd p) x end.

(** WdtNamespaceController (WdtResourceController.h:67-139): numSenders_,
    maxNumSenders_, sendersMap_, and the same for receivers. *)
Record pool := { po_num : Z; po_max : Z; po_map : list (Z * nat) }.
Record nsctl := { nc_name : Z; nc_pools : two pool }.
(** What a transfer object is asked: its transfer id; and which call made it. *)
Record robj := { ob_side : side; ob_tid : Z; ob_call : nat }.
(** WdtResourceController (h:146-293). [rs_heap]: all namespace controllers ever
    made, [rs_map]: namespaceMap_, pointing into it; [rs_locked]: shutdown() holds
    the lock; [rs_nsmax]: options_.namespace_sender_limit, namespace_receiver_limit;
    [rs_crash]: a WDT_CHECK failed. *)
Record gctr := { g_num : Z; g_max : Z }.
Record rshare := {
  rs_glob : two gctr;
  rs_nsmax : two Z;
  rs_strict : bool;
  rs_map : list (Z * nat);
  rs_heap : list nsctl;
  rs_objs : list robj;
  rs_locked : bool;
  rs_crash : bool
}.
Definition set_glob (s : rshare) (g : two gctr) : rshare :=
  {| rs_glob := g; rs_nsmax := rs_nsmax s; rs_strict := rs_strict s; rs_map := rs_map s; rs_heap := rs_heap s;
     rs_objs := rs_objs s; rs_locked := rs_locked s; rs_crash := rs_crash s |}.
Definition set_map (s : rshare) (m : list (Z * nat)) : rshare :=
  {| rs_glob := rs_glob s; rs_nsmax := rs_nsmax s; rs_strict := rs_strict s; rs_map := m; rs_heap := rs_heap s;
     rs_objs := rs_objs s; rs_locked := rs_locked s; rs_crash := rs_crash s |}.
Definition set_heap (s : rshare) (h : list nsctl) : rshare :=
  {| rs_glob := rs_glob s; rs_nsmax := rs_nsmax s; rs_strict := rs_strict s; rs_map := rs_map s; rs_heap := h;
     rs_objs := rs_objs s; rs_locked := rs_locked s; rs_crash := rs_crash s |}.
Definition set_objs (s : rshare) (o : list robj) : rshare :=
  {| rs_glob := rs_glob s; rs_nsmax := rs_nsmax s; rs_strict := rs_strict s; rs_map := rs_map s; rs_heap := rs_heap s;
     rs_objs := o; rs_locked := rs_locked s; rs_crash := rs_crash s |}.
Definition set_flags (s : rshare) (strict locked crash : bool) : rshare :=
  {| rs_glob := rs_glob s; rs_nsmax := rs_nsmax s; rs_strict := strict; rs_map := rs_map s; rs_heap := rs_heap s;
     rs_objs := rs_objs s; rs_locked := locked; rs_crash := crash |}.
Definition add_num (sd : side) (n : Z) (s : rshare) : rshare :=
  let g := get sd (rs_glob s) in
  set_glob s (put sd (rs_glob s) {| g_num := g_num g + n; g_max := g_max g |}).

(** unordered_map::find, erase. *)
Fixpoint lookup (x : Z) (m : list (Z * nat)) : option nat :=
  match m with [] => None | (y, v) :: r => if x =? y then Some v else lookup x r end.
Definition erase (x : Z) (m : list (Z * nat)) : list (Z * nat) := filter (fun p => negb (x =? fst p)) m.

Definition pool_of (sd : side) (nc : nsctl) : pool := get sd (nc_pools nc).
Definition with_pool (sd : side) (nc : nsctl) (p : pool) : nsctl :=
  {| nc_name := nc_name nc; nc_pools := put sd (nc_pools nc) p |}.
(** The controller [k], with its pool changed. *)
Definition set_pool (sd : side) (k : nat) (s : rshare) (p : pool) : rshare :=
  match nth_error (rs_heap s) k with
  | Some nc => set_heap s (set_nth (rs_heap s) k (with_pool sd nc p))
  | None => s
  end.
(** hasSenderQuota and hasReceiverQuota of a namespace, WdtResourceController.cpp:44-52, 81-89. *)
Definition pool_quota (p : pool) : bool := negb ((po_num p >=? po_max p) && (po_max p >? 0)).
(** hasSenderQuotaInternal and hasReceiverQuotaInternal, 343-356, 405-418. *)
Definition quota (sd : side) (s : rshare) (nc : nsctl) : bool :=
  let g := get sd (rs_glob s) in
  negb ((g_num g >=? g_max g) && (g_max g >? 0)) && pool_quota (pool_of sd nc).
(** The constructor of a namespace controller, 36-42, and createNamespaceController, 624-631. *)
Definition new_ns (s : rshare) (ns : Z) : nsctl :=
  {| nc_name := ns;
     nc_pools := Two {| po_num := 0; po_max := at_snd (rs_nsmax s); po_map := [] |}
                     {| po_num := 0; po_max := at_rcv (rs_nsmax s); po_map := [] |} |}.
Definition add_ns (s : rshare) (ns : Z) : rshare :=
  set_map (set_heap s (rs_heap s ++ [new_ns s ns])) ((ns, length (rs_heap s)) :: rs_map s).

(** releaseSender(identifier), releaseAllSenders(), releaseStaleSenders() of a
    namespace (115-133, 135-153, 155-168, 170-189, 191-204, 206-227); what isStale()
    said is given. *)
Inductive which := One (id : Z) | All | Stale.
Definition release (w : which) (stale : list Z) (p : pool) : pool * Z :=
  let kill := fun e => match w with
                       | One id => id =? fst e
                       | All => true
                       | Stale => existsb (Z.eqb (fst e)) stale
                       end in
  let gone := zlen (filter kill (po_map p)) in
  ({| po_num := match w with All => 0 | _ => po_num p - gone end; po_max := po_max p;
      po_map := filter (fun e => negb (kill e)) (po_map p) |}, gone).

(** Where a call is: each constructor stands before the section of the lock named. *)
Inductive rop :=
| OCreate (sd : side) (ns id tid : Z)             (* createSender, createReceiver: 364, 426, global *)
| OCreate2 (sd : side) (k : nat) (id tid : Z)     (* ... 386, 446: of the namespace *)
| OCreate3 (sd : side) (k : nat) (code : Z) (o : option nat)   (* ... 388, 448: global *)
| ORelease (sd : side) (ns : Z) (w : which)       (* releaseSender, ...: getNamespaceController, global *)
| ORelease2 (sd : side) (k : nat) (w : which)     (* ... of the namespace *)
| ORelease3 (sd : side) (k : nat) (w : which) (n : Z)   (* ... global *)
| OGet (sd : side) (ns id : Z)                    (* getSender, getReceiver: 536-545, 574-583, global *)
| OGet2 (sd : side) (k : nat) (id : Z)            (* ... of the namespace *)
| OReg (ns : Z)                                   (* registerWdtNamespace 635, global *)
| ODereg (ns : Z)                                 (* deRegisterWdtNamespace 648, global *)
| ODereg2 (k : nat)                               (* ... 658, of the namespace *)
| ODereg3 (k : nat) (a : Z)                       (* ... 659, of the namespace *)
| ODereg4 (k : nat) (a b : Z)                     (* ... 662, global *)
| ODereg5 (k : nat)                               (* ... 667: waits for the last reference *)
| OLimit (sd : side) (n : Z)                      (* updateMaxSendersLimit, 18-30, global *)
| ONsLimit (sd : side) (ns n : Z)                 (* ... of a namespace, 676-690, global *)
| ONsLimit2 (sd : side) (k : nat) (n : Z)         (* ... of the namespace *)
| OStrict (b : bool)                              (* requireRegistration, 712-714 *)
| OShut                                           (* shutdown, 310: global, and keeps it *)
| OShutS (k : nat) (rest : list nat)              (* ... 313, of the namespace *)
| OShutR (k : nat) (rest : list nat)              (* ... 314, of the namespace *)
| OShutEnd                                        (* ... 317-319 *)
| OUser.                                          (* in init(), transfer(), transferAsync() or finish() of the object *)

Inductive rres := Go (o : rop) | Done (code : Z) (obj : option nat).
(** The shared_ptr to a namespace controller a call holds. *)
Definition op_ctl (o : rop) : option nat :=
  match o with
  | OCreate2 _ k _ _ | OCreate3 _ k _ _ | ORelease2 _ k _ | ORelease3 _ k _ _ | OGet2 _ k _ => Some k
  | ODereg2 k | ODereg3 k _ | ODereg4 k _ _ | ODereg5 k | ONsLimit2 _ k _ | OShutS k _ | OShutR k _ => Some k
  | _ => None
  end.
(** Oracles: what an object's functions return, and which transfers are stale. *)
Record rchoice := { rc_code : Z; rc_stale : list Z }.
Definition shut_next (rest : list nat) : rop :=
  match rest with [] => OShutEnd | k :: r => OShutS k r end.

(** One section. [c]: the number of the call; [used k]: somebody else holds
    controller [k]. [None]: the lock is not free, or the wait goes on. *)
Definition op_step (s : rshare) (c : nat) (used : nat -> bool) (ch : rchoice) (o : rop) : option (rshare * rres) :=
  let global := fun r : rshare * rres => if rs_locked s then None else Some r in
  let at_ns := fun k (f : nsctl -> rshare * rres) =>
    match nth_error (rs_heap s) k with Some nc => Some (f nc) | None => None end in
  match o with
  | OCreate sd ns id tid =>
      let '(s1, found) :=
        match lookup ns (rs_map s) with
        | Some k => (s, Some k)
        | None => if rs_strict s then (s, None) else (add_ns s ns, Some (length (rs_heap s)))
        end in
      match found with
      | None => global (s, Done NOT_FOUND None)
      | Some k =>
          match nth_error (rs_heap s1) k with
          | Some nc => if quota sd s1 nc then global (add_num sd 1 s1, Go (OCreate2 sd k id tid))
                       else global (s1, Done QUOTA_EXCEEDED None)
          | None => None
          end
      end
  | OCreate2 sd k id tid =>
      at_ns k (fun nc =>
        let p := pool_of sd nc in
        match lookup id (po_map p) with
        | Some o => (s, Go (OCreate3 sd k ALREADY_EXISTS (Some o)))
        | None =>
            if pool_quota p
            then let o := length (rs_objs s) in
                 (set_pool sd k (set_objs s (rs_objs s ++ [{| ob_side := sd; ob_tid := tid; ob_call := c |}]))
                    {| po_num := po_num p + 1; po_max := po_max p; po_map := (id, o) :: po_map p |},
                  Done OK (Some o))
            else (s, Go (OCreate3 sd k QUOTA_EXCEEDED None))
        end)
  | OCreate3 sd k code o => global (add_num sd (-1) s, Done code o)
  | ORelease sd ns w =>
      global (s, match lookup ns (rs_map s) with
                 | Some k => Go (ORelease2 sd k w)
                 | None => Done (match w with Stale => NOT_FOUND | _ => ERROR end) None
                 end)
  | ORelease2 sd k w =>
      at_ns k (fun nc =>
        let '(p, n) := release w (rc_stale ch) (pool_of sd nc) in
        (set_pool sd k s p,
         if n >? 0 then Go (ORelease3 sd k w n) else Done (match w with One _ => ERROR | _ => OK end) None))
  | ORelease3 sd k w n => global (add_num sd (- n) s, Done OK None)
  | OGet sd ns id =>
      global (s, match lookup ns (rs_map s) with Some k => Go (OGet2 sd k id) | None => Done OK None end)
  | OGet2 sd k id => at_ns k (fun nc => (s, Done OK (lookup id (po_map (pool_of sd nc)))))
  | OReg ns => global (match lookup ns (rs_map s) with Some _ => s | None => add_ns s ns end, Done OK None)
  | ODereg ns =>
      global (match lookup ns (rs_map s) with
              | Some k => (set_map s (erase ns (rs_map s)), Go (ODereg2 k))
              | None => (s, Done ERROR None)
              end)
  | ODereg2 k =>
      at_ns k (fun nc => let '(p, n) := release All [] (pool_of Snd nc) in (set_pool Snd k s p, Go (ODereg3 k n)))
  | ODereg3 k a =>
      at_ns k (fun nc => let '(p, n) := release All [] (pool_of Rcv nc) in (set_pool Rcv k s p, Go (ODereg4 k a n)))
  | ODereg4 k a b => global (add_num Rcv (- b) (add_num Snd (- a) s), Go (ODereg5 k))
  | ODereg5 k => if used k then None else Some (s, Done OK None)
  | OLimit sd n =>
      global (set_glob s (put sd (rs_glob s) {| g_num := g_num (get sd (rs_glob s)); g_max := n |}), Done OK None)
  | ONsLimit sd ns n =>
      global (s, match lookup ns (rs_map s) with Some k => Go (ONsLimit2 sd k n) | None => Done OK None end)
  | ONsLimit2 sd k n =>
      at_ns k (fun nc => let p := pool_of sd nc in
        (set_pool sd k s {| po_num := po_num p; po_max := n; po_map := po_map p |}, Done OK None))
  | OStrict b => Some (set_flags s b (rs_locked s) (rs_crash s), Done OK None)
  | OShut => global (set_flags s (rs_strict s) true (rs_crash s), Go (shut_next (map snd (rs_map s))))
  | OShutS k rest =>
      at_ns k (fun nc => let '(p, n) := release All [] (pool_of Snd nc) in
        (add_num Snd (- n) (set_pool Snd k s p), Go (OShutR k rest)))
  | OShutR k rest =>
      at_ns k (fun nc => let '(p, n) := release All [] (pool_of Rcv nc) in
        (add_num Rcv (- n) (set_pool Rcv k s p), Go (shut_next rest)))
  | OShutEnd =>
      let ok := (g_num (at_rcv (rs_glob s)) =? 0) && (g_num (at_snd (rs_glob s)) =? 0) in
      Some (set_flags (set_map s []) (rs_strict s) false (rs_crash s || negb ok), Done OK None)
  | OUser => Some (s, Done (rc_code ch) None)
  end.

(** The calls: those of the resource controller, and of Wdt.cpp:
    wdtSend (112-133, with createWdtSender 67-105), wdtReceiveStart (135-169),
    wdtReceiveFinish (171-186). [key]: getSenderIdentifier(req), 60-65. The checks of
    req.errorCode at the head of the functions, which return before anything, are
    left out. *)
Inductive rcall :=
| CCreate (sd : side) (ns id tid : Z)
| CRelease (sd : side) (ns : Z) (w : which)
| CReg (ns : Z)
| CDereg (ns : Z)
| CLimit (sd : side) (n : Z)
| CNsLimit (sd : side) (ns n : Z)
| CStrict (b : bool)
| CShutdown
| CSend (ns key tid : Z) (terminate : bool)
| CRecvStart (ns id tid : Z)
| CRecvFinish (ns id : Z).
(** Where in Wdt.cpp the call is waiting for a function to return. *)
Inductive kont :=
| KDirect                                         (* the call is the function itself *)
| KSend1 (ns key tid : Z) (terminate : bool)      (* Wdt.cpp:80 *)
| KSendRel (ns key tid : Z)                       (* 92 *)
| KSend2 (ns key : Z)                             (* 94 *)
| KSendInit (ns key : Z) (o : nat)                (* 122 *)
| KSendRun (ns key : Z) (o : nat)                 (* 127 *)
| KSendEnd (ns key : Z) (o : nat) (code : Z)      (* 129 *)
| KRecv                                           (* 147 *)
| KRecvInit (o : nat)                             (* 158 *)
| KRecvAsync (o : nat)                            (* 164 *)
| KFinGet (ns id : Z)                             (* 174 *)
| KFin (ns id : Z) (o : nat)                      (* 180 *)
| KFinEnd (code : Z).                             (* 184 *)
Definition begin (c : rcall) : kont * rop :=
  match c with
  | CCreate sd ns id tid => (KDirect, OCreate sd ns id tid)
  | CRelease sd ns w => (KDirect, ORelease sd ns w)
  | CReg ns => (KDirect, OReg ns)
  | CDereg ns => (KDirect, ODereg ns)
  | CLimit sd n => (KDirect, OLimit sd n)
  | CNsLimit sd ns n => (KDirect, ONsLimit sd ns n)
  | CStrict b => (KDirect, OStrict b)
  | CShutdown => (KDirect, OShut)
  | CSend ns key tid t => (KSend1 ns key tid t, OCreate Snd ns key tid)
  | CRecvStart ns id tid => (KRecv, OCreate Rcv ns id tid)
  | CRecvFinish ns id => (KFinGet ns id, OGet Rcv ns id)
  end.
(** What follows when the function returned ([inr]: the call returns). *)
Definition resume (objs : list robj) (k : kont) (code : Z) (obj : option nat) : (kont * rop) + Z :=
  match k with
  | KDirect => inr code
  | KSend1 ns key tid term =>
      if (code =? ALREADY_EXISTS) && term then
        match obj with
        | Some o => match nth_error objs o with
                    | Some x => if ob_tid x =? tid then inr ALREADY_EXISTS
                                else inl (KSendRel ns key tid, ORelease Snd ns (One key))
                    | None => inr code
                    end
        | None => inr code
        end
      else match code =? OK, obj with
           | true, Some o => inl (KSendInit ns key o, OUser)
           | _, _ => inr code
           end
  | KSendRel ns key tid => inl (KSend2 ns key, OCreate Snd ns key tid)
  | KSend2 ns key =>
      match code =? OK, obj with true, Some o => inl (KSendInit ns key o, OUser) | _, _ => inr code end
  | KSendInit ns key o => if code =? OK then inl (KSendRun ns key o, OUser) else inr code
  | KSendRun ns key o => inl (KSendEnd ns key o code, ORelease Snd ns (One key))
  | KSendEnd _ _ _ code' => inr code'
  | KRecv => match code =? OK, obj with true, Some o => inl (KRecvInit o, OUser) | _, _ => inr code end
  | KRecvInit o => if code =? OK then inl (KRecvAsync o, OUser) else inr code
  | KRecvAsync o => inr code
  | KFinGet ns id => match obj with Some o => inl (KFin ns id o, OUser) | None => inr NOT_FOUND end
  | KFin ns id o => inl (KFinEnd code, ORelease Rcv ns (One id))
  | KFinEnd code' => inr code'
  end.

(** A thread; the system, with the calls made and, of those that returned, their
    number, where they returned and their code. *)
Inductive rthread := RIdle | RBusy (c : nat) (k : kont) (o : rop).
Record rsys := {
  ry_share : rshare;
  ry_threads : list rthread;
  ry_calls : list rcall;
  ry_log : list (nat * kont * Z)
}.
Definition th_ctl (t : rthread) : option nat := match t with RBusy _ _ o => op_ctl o | RIdle => None end.
Definition holds (t : rthread) (k : nat) : bool :=
  match th_ctl t with Some j => Nat.eqb j k | None => false end.
Inductive rev := EvCall (i : nat) (c : rcall) | EvStep (i : nat) (ch : rchoice).
Definition others_hold (s : rsys) (i : nat) (k : nat) : bool :=
  existsb (fun t => holds t k) (set_nth (ry_threads s) i RIdle).
Definition ry_step (s : rsys) (e : rev) : option rsys :=
  if rs_crash (ry_share s) then None else
  match e with
  | EvCall i c =>
      match nth_error (ry_threads s) i with
      | Some RIdle =>
          let '(k, o) := begin c in
          Some {| ry_share := ry_share s;
                  ry_threads := set_nth (ry_threads s) i (RBusy (length (ry_calls s)) k o);
                  ry_calls := ry_calls s ++ [c]; ry_log := ry_log s |}
      | _ => None
      end
  | EvStep i ch =>
      match nth_error (ry_threads s) i with
      | Some (RBusy c k o) =>
          match op_step (ry_share s) c (others_hold s i) ch o with
          | None => None
          | Some (sh, Go o') =>
              Some {| ry_share := sh; ry_threads := set_nth (ry_threads s) i (RBusy c k o');
                      ry_calls := ry_calls s; ry_log := ry_log s |}
          | Some (sh, Done code obj) =>
              match resume (rs_objs sh) k code obj with
              | inl (k', o') =>
                  Some {| ry_share := sh; ry_threads := set_nth (ry_threads s) i (RBusy c k' o');
                          ry_calls := ry_calls s; ry_log := ry_log s |}
              | inr code' =>
                  Some {| ry_share := sh; ry_threads := set_nth (ry_threads s) i RIdle;
                          ry_calls := ry_calls s; ry_log := ry_log s ++ [(c, k, code')] |}
              end
          end
      | _ => None
      end
  end.
Fixpoint ry_run (evs : list rev) (s : rsys) : option rsys :=
  match evs with
  | [] => Some s
  | e :: r => match ry_step s e with Some s' => ry_run r s' | None => None end
  end.
(** A new controller (282-288) with its limits, and [n] threads. *)
Definition ry_init (max nsmax : two Z) (n : nat) : rsys :=
  {| ry_share := {| rs_glob := Two {| g_num := 0; g_max := at_snd max |} {| g_num := 0; g_max := at_rcv max |};
                    rs_nsmax := nsmax; rs_strict := false; rs_map := []; rs_heap := []; rs_objs := [];
                    rs_locked := false; rs_crash := false |};
     ry_threads := repeat RIdle n; ry_calls := []; ry_log := [] |}.
