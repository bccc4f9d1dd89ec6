(** Throttler.h and Throttler.cpp: the throttle shared by the threads of one or
    more transfers.

    Simplified: the doubles are exact rationals (times in seconds), so rounding is
    not here; the truncations to int64_t of tokenBucket_ are. The periodic logs
    (printPeriodicLogs) and the statistics of sleeping are left out. *)
From Coq Require Export QArith.
From Verif Require Export Model.QueueMonitor Spec.Sums.
Open Scope Z_scope.

Definition Qltb (a b : Q) : bool := negb (Qle_bool b a).
(** Conversion of a double to int64_t: towards zero. *)
Definition Qtrunc (q : Q) : Z := Z.quot (Qnum q) (Zpos (Qden q)).

(** Members, Throttler.h:189-222. *)
Record throttler := {
  th_start : Q;       (* startTime_ *)
  th_progress : Q;    (* progress_ *)
  th_fill : Q;        (* lastFillTime_ *)
  th_bucket : Z;      (* tokenBucket_ *)
  th_refs : Z;        (* refCount_ *)
  th_avg : Q;         (* avgRatePerSec_ *)
  th_limit : Q;       (* tokenBucketLimit_ *)
  th_rate : Q;        (* bucketRatePerSec_ *)
  th_single : Z       (* singleRequestLimit_ *)
}.

(** struct ThrottlerOptions, Throttler.h:18-55 (without the log period). *)
Record throttler_options := {
  to_avg : Q; to_max : Q; to_bucket : Q; to_single : Z
}.
(** Throttler::Throttler, Throttler.cpp:40-68; times are those of the epoch until
    startTransfer; [None]: WDT_CHECK_GT(single_request_limit, 0). *)
Definition newThrottler (o : throttler_options) : option throttler :=
  if to_single o <=? 0 then None
  else Some {| th_start := 0; th_progress := 0; th_fill := 0; th_bucket := 0; th_refs := 0;
               th_avg := to_avg o;
               th_limit := if Qltb 0 (to_bucket o) then to_bucket o else ((1 # 4) * 2 * to_max o)%Q;
               th_rate := to_max o; th_single := to_single o |}.
(** configureOptions, Throttler.cpp:25-38: average, peak, bucket. *)
Definition configureOptions (avg peak bucket : Q) : Q * Q * Q :=
  let peak' := if Qltb peak avg && Qle_bool 0 peak then ((6 # 5) * avg)%Q else peak in
  (avg, peak', if Qle_bool bucket 0 && Qltb 0 peak' then ((1 # 4) * 2 * peak')%Q else bucket).
(** resetState, Throttler.cpp:235-242. *)
Definition resetState (now : Q) (t : throttler) : throttler :=
  {| th_start := now; th_progress := 0; th_fill := now; th_bucket := 0; th_refs := th_refs t;
     th_avg := th_avg t; th_limit := th_limit t; th_rate := th_rate t; th_single := th_single t |}.
Definition with_refs (t : throttler) (n : Z) : throttler :=
  {| th_start := th_start t; th_progress := th_progress t; th_fill := th_fill t; th_bucket := th_bucket t;
     th_refs := n; th_avg := th_avg t; th_limit := th_limit t; th_rate := th_rate t; th_single := th_single t |}.
(** startTransfer, Throttler.cpp:227-233, and endTransfer, 244-248 ([None]: check). *)
Definition startTransfer (now : Q) (t : throttler) : throttler :=
  let t' := if th_refs t =? 0 then resetState now t else t in with_refs t' (th_refs t' + 1).
Definition endTransfer (t : throttler) : option throttler :=
  if th_refs t <=? 0 then None else Some (with_refs t (th_refs t - 1)).
(** setThrottlerRates, Throttler.cpp:70-88. *)
Definition setThrottlerRates (now : Q) (avg peak bucket : Q) (t : throttler) : throttler :=
  let '(a, p, b) := configureOptions avg peak bucket in
  let t' := resetState now t in
  {| th_start := th_start t'; th_progress := th_progress t'; th_fill := th_fill t'; th_bucket := th_bucket t';
     th_refs := th_refs t'; th_avg := a; th_limit := b; th_rate := p; th_single := th_single t' |}.

(** averageThrottler, Throttler.cpp:205-225. *)
Definition averageThrottler (t : throttler) (now : Q) : Q :=
  let elapsed := (now - th_start t)%Q in
  if Qle_bool (th_avg t) 0 then (-1)%Q
  else if Qltb (th_avg t * elapsed) (th_progress t) then (th_progress t / th_avg t - elapsed)%Q
  else (-1)%Q.
(** calculateSleep, Throttler.cpp:143-178. *)
Definition with_progress (t : throttler) (p : Q) : throttler :=
  {| th_start := th_start t; th_progress := p; th_fill := th_fill t; th_bucket := th_bucket t;
     th_refs := th_refs t; th_avg := th_avg t; th_limit := th_limit t; th_rate := th_rate t; th_single := th_single t |}.
Definition with_bucket (t : throttler) (now : Q) (b : Z) : throttler :=
  {| th_start := th_start t; th_progress := th_progress t; th_fill := now; th_bucket := b;
     th_refs := th_refs t; th_avg := th_avg t; th_limit := th_limit t; th_rate := th_rate t; th_single := th_single t |}.
Definition calculateSleep (t : throttler) (delta : Z) (now : Q) : throttler * Q :=
  if th_refs t <=? 0 then (t, (-1)%Q)
  else
    let t1 := with_progress t (th_progress t + inject_Z delta)%Q in
    let s := averageThrottler t1 now in
    if Qltb 0 s then (t1, s)
    else if Qltb 0 (th_rate t1) && Qltb 0 (th_limit t1) then
      let elapsed := (now - th_fill t1)%Q in
      let b1 := Qtrunc (inject_Z (th_bucket t1) + elapsed * th_rate t1) in
      let b2 := if Qltb (th_limit t1) (inject_Z b1) then Qtrunc (th_limit t1) else b1 in
      let b3 := b2 - delta in
      (with_bucket t1 now b3, if b3 <? 0 then (inject_Z (- b3) / th_rate t1)%Q else (-1)%Q)
    else (t1, (-1)%Q).

(** A thread with respect to the throttle. [TkNext]: at the head of the loop of
    limitInternal (Throttler.cpp:102-117) with [num] of [total] done; [TkCalc]: it
    has taken the time, limitSingleRequest line 122, and not yet the lock;
    [TkSleep]: in sleep() until [wake] at least, charge number [k]. *)
Inductive tkst :=
| TkIdle
| TkNext (total num : Z)
| TkCalc (total num : Z) (now : Q)
| TkSleep (total num : Z) (k : nat) (wake : Q).

(** Observed, in the order of the lock: one entry per limitSingleRequest, with the
    time it took, the tokens it left and the time it returned; and the calls of
    limit() that returned, with their size. *)
Record charge := { ch_bytes : Z; ch_now : Q; ch_bucket : Z; ch_end : option Q }.
Record tksys := {
  tk_th : throttler;
  tk_clock : Q;
  tk_threads : list tkst;
  tk_log : list charge;
  tk_calls : list (Z * Q)
}.
Definition toThrottle (t : throttler) (total num : Z) : Z := Z.min (th_single t) (total - num).

(** Events: time passes; a thread calls limit(n); it passes the head of the loop
    (returning when done); it goes through calculateSleep; it wakes up, not before
    its time; a transfer registers or deregisters. The last one never deregisters:
    the run is one between two calls of resetState. *)
Inductive tkev :=
| EvTick (d : Q)
| EvLimit (i : nat) (n : Z)
| EvHead (i : nat)
| EvCalc (i : nat)
| EvWake (i : nat)
| EvReg
| EvDereg.
Definition tk_set (s : tksys) (i : nat) (x : tkst) : tksys :=
  {| tk_th := tk_th s; tk_clock := tk_clock s; tk_threads := set_nth (tk_threads s) i x;
     tk_log := tk_log s; tk_calls := tk_calls s |}.
Definition ch_return (c : charge) (t : Q) : charge :=
  {| ch_bytes := ch_bytes c; ch_now := ch_now c; ch_bucket := ch_bucket c; ch_end := Some t |}.
Definition tk_step (s : tksys) (e : tkev) : option tksys :=
  match e with
  | EvTick d =>
      if Qle_bool 0 d
      then Some {| tk_th := tk_th s; tk_clock := (tk_clock s + d)%Q; tk_threads := tk_threads s;
                   tk_log := tk_log s; tk_calls := tk_calls s |}
      else None
  | EvLimit i n =>
      match nth_error (tk_threads s) i with
      | Some TkIdle => Some (tk_set s i (TkNext n 0))
      | _ => None
      end
  | EvHead i =>
      match nth_error (tk_threads s) i with
      | Some (TkNext total num) =>
          if num <? total then Some (tk_set s i (TkCalc total num (tk_clock s)))
          else Some {| tk_th := tk_th s; tk_clock := tk_clock s;
                       tk_threads := set_nth (tk_threads s) i TkIdle; tk_log := tk_log s;
                       tk_calls := tk_calls s ++ [(total, tk_clock s)] |}
      | _ => None
      end
  | EvCalc i =>
      match nth_error (tk_threads s) i with
      | Some (TkCalc total num now) =>
          let d := toThrottle (tk_th s) total num in
          let '(t', sleep) := calculateSleep (tk_th s) d now in
          let go := Qle_bool sleep 0 in
          Some {| tk_th := t'; tk_clock := tk_clock s;
                  tk_threads := set_nth (tk_threads s) i
                    (if go then TkNext total (num + d)
                     else TkSleep total num (length (tk_log s)) (tk_clock s + sleep)%Q);
                  tk_log := tk_log s ++ [{| ch_bytes := d; ch_now := now; ch_bucket := th_bucket t';
                                            ch_end := if go then Some (tk_clock s) else None |}];
                  tk_calls := tk_calls s |}
      | _ => None
      end
  | EvWake i =>
      match nth_error (tk_threads s) i with
      | Some (TkSleep total num k wake) =>
          match nth_error (tk_log s) k with
          | Some c =>
              if Qle_bool wake (tk_clock s)
              then Some {| tk_th := tk_th s; tk_clock := tk_clock s;
                           tk_threads := set_nth (tk_threads s) i (TkNext total (num + ch_bytes c));
                           tk_log := set_nth (tk_log s) k (ch_return c (tk_clock s)); tk_calls := tk_calls s |}
              else None
          | None => None
          end
      | _ => None
      end
  | EvReg => Some {| tk_th := startTransfer (tk_clock s) (tk_th s); tk_clock := tk_clock s;
                     tk_threads := tk_threads s; tk_log := tk_log s; tk_calls := tk_calls s |}
  | EvDereg =>
      if th_refs (tk_th s) <=? 1 then None
      else match endTransfer (tk_th s) with
           | Some t => Some {| tk_th := t; tk_clock := tk_clock s; tk_threads := tk_threads s;
                               tk_log := tk_log s; tk_calls := tk_calls s |}
           | None => None
           end
  end.
Fixpoint tk_run (evs : list tkev) (s : tksys) : option tksys :=
  match evs with
  | [] => Some s
  | e :: r => match tk_step s e with Some s' => tk_run r s' | None => None end
  end.
(** [n] threads and a throttler on which the first transfer just registered. *)
Definition tk_init (t : throttler) (now : Q) (n : nat) : tksys :=
  {| tk_th := with_refs (resetState now t) 1; tk_clock := now; tk_threads := repeat TkIdle n;
     tk_log := []; tk_calls := [] |}.
