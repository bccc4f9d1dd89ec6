(** What a throttle must guarantee. *)
From Verif Require Export Model.Throttler.
Open Scope Z_scope.

(** Bytes of the calls of limit() that returned by time [t]. *)
Definition returned (t : Q) (calls : list (Z * Q)) : Z :=
  zsum (fun c => if Qle_bool (snd c) t then fst c else 0) calls.
(** Bytes of the requests that were let through in the time after [a] until [b]. *)
Definition passed (a b : Q) (log : list charge) : Z :=
  zsum (fun c => match ch_end c with
                 | Some t => if Qltb a t && Qle_bool t b then ch_bytes c else 0
                 | None => 0
                 end) log.
(** Bytes of the requests behind number [i] up to number [j], in the order of the lock. *)
Definition between (i j : nat) (log : list charge) : Z :=
  zsum ch_bytes (firstn (j - i) (skipn (S i) log)).
(** When a request of a token bucket with this [rate] may return: as soon as the
    tokens it lacked are there. *)
Definition due (rate : Q) (c : charge) : Q :=
  (ch_now c + (if (ch_bucket c <? 0)%Z then inject_Z (- ch_bucket c) / rate else 0))%Q.
(** A run without the imprecisions of clocks: nobody oversleeps, ... *)
Definition punctual (rate : Q) (log : list charge) : Prop :=
  forall c t, In c log -> ch_end c = Some t -> (t == due rate c)%Q.
(** ... requests enter in the order of the times they took, ... *)
Definition in_order (log : list charge) : Prop :=
  forall i x y, nth_error log i = Some x -> nth_error log (S i) = Some y -> (ch_now x <= ch_now y)%Q.
(** ... and the bucket gets whole tokens between two of them. *)
Definition whole_tokens (start rate : Q) (log : list charge) : Prop :=
  forall i y, nth_error log i = Some y ->
    exists n, ((ch_now y - match i with O => start | S j => match nth_error log j with Some x => ch_now x | None => start end end)
               * rate == inject_Z n)%Q.
