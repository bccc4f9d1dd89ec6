(** What a connecting socket is to do, said without its loops. *)
From Verif Require Import Model.Connect.

(** At most one descriptor is in use at a time, it is waited for only while it does not
    block, and it is closed once. The state: the descriptor, and whether it blocks. *)
Definition step (h : option (Z * bool)) (e : cev) : option (option (Z * bool)) :=
  match e, h with
  | COpen fd, None => Some (Some (fd, true))
  | CClose fd, Some (f, _) => if f =? fd then Some None else None
  | CMode fd b, Some (f, _) => if f =? fd then Some (Some (f, b)) else None
  | CPoll fd _, Some (f, b) => if (f =? fd) && negb b then Some h else None
  | _, _ => None
  end.
Fixpoint replay (h : option (Z * bool)) (l : list cev) : option (option (Z * bool)) :=
  match l with
  | [] => Some h
  | e :: r => match step h e with Some h' => replay h' r | None => None end
  end.

(** How waiting ends that has lasted [t] ms. *)
Inductive Waits (o : copts) : Z -> list pollans -> waited -> Prop :=
| W_abort : forall t p r, po_abort p = true -> Waits o t (p :: r) (Gives ABORT)
| W_late : forall t p r, po_abort p = false -> co_connect o <= t -> Waits o t (p :: r) (Gives CONN_ERROR_RETRYABLE)
| W_ready : forall t p r, po_abort p = false -> t < co_connect o ->
    fst (poll (Z.min (co_connect o - t) (co_abort o)) p) > 0 -> Waits o t (p :: r) Ready
| W_again : forall t p r w res dt, po_abort p = false -> t < co_connect o ->
    poll (Z.min (co_connect o - t) (co_abort o)) p = (res, dt) -> (res = 0 \/ res < 0 /\ po_intr p = true) ->
    Waits o (t + dt) r w -> Waits o t (p :: r) w
| W_broken : forall t p r, po_abort p = false -> t < co_connect o ->
    fst (poll (Z.min (co_connect o - t) (co_abort o)) p) < 0 -> po_intr p = false -> Waits o t (p :: r) (Gives CONN_ERROR).

(** What becomes of an address: connected, passed over, or the end of the attempt. *)
Definition reached (o : copts) (a : addr) : Prop :=
  ad_err a = 0 \/ (ad_err a = EINPROGRESS /\ Waits o 0 (ad_polls a) Ready /\ ad_opt a = true /\ ad_soerr a = 0).
Definition up (o : copts) (a : addr) : Prop :=
  ad_fd a <> -1 /\ ad_nonblock a = true /\ reached o a /\ ad_block a = true.
Definition passed_over (o : copts) (a : addr) : Prop :=
  ad_fd a = -1 \/ ad_nonblock a = false \/ (ad_err a <> 0 /\ ad_err a <> EINPROGRESS)
  \/ (ad_err a = EINPROGRESS /\ Waits o 0 (ad_polls a) Ready /\ (ad_opt a = false \/ ad_soerr a <> 0))
  \/ (reached o a /\ ad_block a = false).
Definition ends (o : copts) (a : addr) (code : Z) : Prop :=
  ad_fd a <> -1 /\ ad_nonblock a = true /\ ad_err a = EINPROGRESS /\ Waits o 0 (ad_polls a) (Gives code).
(** The first address that is not passed over decides. [fd]: -1 if none is held. *)
Definition decided (o : copts) (l : list addr) (code fd : Z) : Prop :=
  (Forall (passed_over o) l /\ code = CONN_ERROR_RETRYABLE /\ fd = -1)
  \/ exists pre a post, l = pre ++ a :: post /\ Forall (passed_over o) pre
       /\ ((up o a /\ code = OK /\ fd = ad_fd a) \/ (ends o a code /\ fd = -1)).

(** What the system can do: descriptors are not below -1, waiting does not go back in
    time, and no wait is longer than asked for. *)
Definition io_sane (d : Z) (i : ioans) : Prop := 0 <= io_dt i <= d.
Definition sane (d : Z) (a : addr) : Prop :=
  -1 <= ad_fd a /\ Forall (fun p => 0 <= po_after p) (ad_polls a) /\ Forall (io_sane d) (ad_reads a).
(** Every time-out given to ::poll lies in (0, m]. *)
Definition polls_within (m : Z) (l : list cev) : Prop := forall fd t, In (CPoll fd t) l -> 0 < t <= m.

(** The answers of ::poll on a connection that comes up [d] ms after it was asked for,
    undisturbed, when the time-outs are cut into pieces: [n] of them, from [t] on. *)
Fixpoint comes_up (o : copts) (d : Z) (n : nat) (t : Z) : list pollans :=
  match n with
  | O => []
  | S n => {| po_abort := false; po_after := d - t; po_res := 1; po_intr := false |}
           :: comes_up o d n (Z.min d (t + Z.min (co_connect o - t) (co_abort o)))
  end.
(** The system answers often enough, and no wait takes less than 1 ms. *)
Definition lively (o : copts) (a : addr) : Prop :=
  ad_err a = EINPROGRESS ->
  (exists p r, ad_polls a = p :: r /\ (po_abort p = true \/ (0 < po_res p /\ po_after p <= Z.min (co_connect o) (co_abort o))))
  \/ (Forall (fun p => 1 <= po_after p) (ad_polls a) /\ co_connect o < Z.of_nat (length (ad_polls a)) /\ ad_polls a <> []).

(** The bytes moved by some calls of ::read or ::write, and the time they took. *)
Fixpoint io_bytes (l : list ioans) : Z := match l with [] => 0 | a :: r => Z.max 0 (io_ret a) + io_bytes r end.
Fixpoint io_took (l : list ioans) : Z := match l with [] => 0 | a :: r => io_dt a + io_took r end.
(** Why a call was the last one before everything was moved. *)
Definition io_gives_up (o : copts) (timeout t : Z) (full : bool) (a : ioans) : Prop :=
  (io_ret a < 0 /\ io_again a = false) \/ io_ret a = 0 \/ (0 < io_ret a /\ full = false) \/
  (0 < co_abort o /\ io_abort a = true) \/ (0 < timeout <= t).
