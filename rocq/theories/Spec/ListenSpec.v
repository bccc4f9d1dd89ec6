(** What a server socket is to do, said without its loops. *)
From Verif Require Import Model.Connect Model.Listen.

(** The descriptors in use and the port each is bound to (-1: none). A descriptor handed
    out by the system while it is in use is the system's fault ([Odd]); anything else
    that does not fit is the program's ([Bad]). *)
Definition table := Z -> option Z.
Definition put (live : table) (fd : Z) (v : option Z) : table := fun x => if x =? fd then v else live x.
Inductive verdict := Good (live : table) | Odd | Bad.
Definition step (live : table) (e : lev) : verdict :=
  match e with
  | LOpen fd => match live fd with Some _ => Odd | None => Good (put live fd (Some (-1))) end
  | LBound fd p => match live fd with Some _ => Good (put live fd (Some p)) | None => Bad end
  | LClose fd => match live fd with Some _ => Good (put live fd None) | None => Bad end
  | LAccept from fd =>
      match live from with
      | None => Bad
      | Some p => if p =? -1 then Bad
                  else match live fd with Some _ => Odd | None => Good (put live fd (Some (-1))) end
      end
  end.
Fixpoint replay (live : table) (l : list lev) : verdict :=
  match l with
  | [] => Good live
  | e :: r => match step live e with Good live' => replay live' r | v => v end
  end.
(** Exactly the listening descriptors, all bound to the port of the socket, and the
    connection are in use. *)
Definition expected (s : lst) (fd : Z) : option Z :=
  if existsb (Z.eqb fd) (l_fds s) then Some (l_port s)
  else if (fd =? l_conn s) && (0 <=? fd) then Some (-1) else None.
Definition accounted (s : lst) : Prop :=
  match replay (fun _ => None) (l_tr s) with
  | Good live => forall fd, live fd = expected s fd
  | Odd => True
  | Bad => False
  end.

(** What the system can do. *)
Definition info_sane (i : info) : Prop := -1 <= in_fd i /\ in_fam i <> AF_UNSPEC /\ 0 < in_sel i.
Definition looks_sane (looks : list (option (list info))) : Prop :=
  forall l i, In (Some l) looks -> In i l -> info_sane i.
Definition op_sane (x : lop) : Prop :=
  match x with
  | LListen looks => looks_sane looks
  | LNext looks _ _ _ _ => looks_sane looks
  | _ => True
  end.

(** The addresses a socket can listen on; without a port, the first whose port can be
    told decides the port, and no other of its family is used. *)
Definition usable (i : info) : bool := negb (in_fd i =? -1) && in_bind i && in_listen i.
Definition others (fam : Z) (l : list info) : list Z :=
  map in_fd (filter (fun i => usable i && negb (in_fam i =? fam)) l).
Fixpoint selected (l : list info) (more : list (option (list info))) : option (info * list info) :=
  match l with
  | [] => None
  | i :: r =>
      if usable i && in_ask i then
        match more with
        | Some (x :: l') :: _ => Some (i, x :: l')
        | _ :: more' => selected r more'
        | [] => None
        end
      else selected r more
  end.
Definition listens (port : Z) (l : list info) (more : list (option (list info))) : Z * list Z :=
  if port =? 0 then
    match selected l more with
    | Some (i, l') => (in_sel i, in_fd i :: others (in_fam i) l')
    | None => (0, [])
    end
  else (port, others AF_UNSPEC l).

(** The first ready descriptor, counted from [start] on, round the ring of [n]. *)
Definition first_ready (n start : Z) (ready : list bool) (idx : Z) : Prop :=
  exists k, 0 <= k < n /\ idx = (start + k) mod n /\ nth (Z.to_nat idx) ready false = true
    /\ forall k', 0 <= k' < k -> nth (Z.to_nat ((start + k') mod n)) ready false = false.

(** A number of accepts one after the other, each of which got a connection. *)
Record call := { k_timeout : Z; k_polls : list lpoll; k_acc : Z }.
Fixpoint accepted (o : lopts) (s : lst) (l : list call) : option lst :=
  match l with
  | [] => Some s
  | c :: r =>
      match acceptNextConnection o [] (k_timeout c) false (k_polls c) (k_acc c) (closeNoCheck s) with
      | Ret (Some (code, s')) => if code =? OK then accepted o s' r else None
      | _ => None
      end
  end.

(** Names tell the port that was asked for. *)
Definition names_right (port : Z) (l : list info) : Prop := forall i p, In i l -> in_name i = Some p -> p = port.
Definition honest (o : lopts) (s : lst) (looks : list (option (list info))) : Prop :=
  match looks with
  | Some l :: more =>
      let port := if lo_static o then l_port s else 0 in
      names_right port l /\ (port = 0 -> forall i l', selected l more = Some (i, l') -> names_right (in_sel i) l')
  | _ => True
  end.

(** The answers of ::poll when a connection arrives after [d] ms, undisturbed: [n] of
    them, from [t] on. *)
Definition piece (o : lopts) (timeout t : Z) : Z :=
  if 0 <? lo_abort o then Z.min (timeout - t) (lo_abort o) else timeout - t.
Fixpoint arrives (o : lopts) (timeout d : Z) (ready : list bool) (n : nat) (t : Z) : list lpoll :=
  match n with
  | O => []
  | S n =>
      {| lp_poll := {| po_abort := false; po_after := d - t; po_res := 1; po_intr := false |}; lp_ready := ready |}
      :: arrives o timeout d ready n (Z.min d (t + piece o timeout t))
  end.
