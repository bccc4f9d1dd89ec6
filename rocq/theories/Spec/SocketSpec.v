(** What the encrypted wire is to look like, byte by byte: nothing about calls. *)
From Verif Require Export Model.Socket.

(** How far a stream has got: plaintext bytes so far, the IV in use, the ciphertext
    under it, and the IVs still to come. *)
Record pst := { x_pos : Z; x_iv : list Z; x_c : list Z; x_ivs : list (list Z) }.
Definition pst0 (iv : list Z) (ivs : list (list Z)) : pst := {| x_pos := 0; x_iv := iv; x_c := []; x_ivs := ivs |}.
(** A tag is due before the next byte: behind every [k] bytes. *)
Definition due (k : Z) (s : pst) : bool := (0 <? k) && (0 <? x_pos s) && (x_pos s mod k =? 0).
(** The IV changes at a tag if the bytes up to the next one would exceed the limit. *)
Definition change (o : sopts) (s : pst) : bool :=
  negb (so_lim o =? 0) && (so_lim o <? zlen (x_c s) + so_k o).
Definition tag_bytes (K : cipher) (o : sopts) (s : pst) : list Z :=
  tagf K (x_iv s) (x_c s) ++ (if change o s then hd iv0 (x_ivs s) else []).
Definition tag_next (o : sopts) (s : pst) : pst :=
  if change o s
  then {| x_pos := x_pos s; x_iv := hd iv0 (x_ivs s); x_c := []; x_ivs := tl (x_ivs s) |}
  else s.
Definition cbyte (K : cipher) (s : pst) (b : Z) : Z := Z.lxor b (ks K (x_iv s) (zlen (x_c s))).
Definition byte_next (s : pst) (x : Z) : pst :=
  {| x_pos := x_pos s + 1; x_iv := x_iv s; x_c := x_c s ++ [x]; x_ivs := x_ivs s |}.
(** The state from which the next byte is sent. *)
Definition ready (o : sopts) (s : pst) : pst := if due (so_k o) s then tag_next o s else s.
Definition lead (K : cipher) (o : sopts) (s : pst) : list Z := if due (so_k o) s then tag_bytes K o s else [].
Definition pnext (K : cipher) (o : sopts) (s : pst) (b : Z) : pst :=
  byte_next (ready o s) (cbyte K (ready o s) b).
(** The wire bytes of a plaintext, and the state behind them. *)
Fixpoint wire (K : cipher) (o : sopts) (s : pst) (plain : list Z) : list Z :=
  match plain with
  | [] => []
  | b :: r => lead K o s ++ cbyte K (ready o s) b :: wire K o (pnext K o s b) r
  end.
Fixpoint after (K : cipher) (o : sopts) (s : pst) (plain : list Z) : pst :=
  match plain with [] => s | b :: r => after K o (pnext K o s b) r end.
(** Where the IV changes: the positions of the changes among [plain]. *)
Fixpoint changes (K : cipher) (o : sopts) (s : pst) (plain : list Z) : list Z :=
  match plain with
  | [] => []
  | b :: r => (if due (so_k o) s && change o s then [x_pos s] else []) ++ changes K o (pnext K o s b) r
  end.
Definition good_cipher (K : cipher) : Prop := forall iv c, zlen (tagf K iv c) = 16.
Definition good_ivs (ivs : list (list Z)) : Prop := Forall (fun iv => zlen iv = 16) ivs.

(** ** What a reader may take from any wire *)
(** [taken rep K o (s, f) w p (s', f')] : from [s], the wire bytes [w] give the
    plaintext [p] and lead to [s']. The flag [f] says that the tag due at this
    position was verified. A byte behind a full interval is only given once it
    was. [rep]: a tag may be read again although it was verified. *)
Inductive taken (rep : bool) (K : cipher) (o : sopts) : pst * bool -> list Z -> list Z -> pst * bool -> Prop :=
| tk_nil s : taken rep K o s [] [] s
| tk_byte s f x w p s' :
    due (so_k o) s = false \/ f = true ->
    taken rep K o (byte_next s x, false) w p s' ->
    taken rep K o (s, f) (x :: w) (cbyte K s x :: p) s'
| tk_tag s f w p s' :
    due (so_k o) s = true -> rep = true \/ f = false -> change o s = false ->
    taken rep K o (s, true) w p s' ->
    taken rep K o (s, f) (tagf K (x_iv s) (x_c s) ++ w) p s'
| tk_iv s f iv w p s' :
    due (so_k o) s = true -> rep = true \/ f = false -> change o s = true -> zlen iv = 16 ->
    taken rep K o ({| x_pos := x_pos s; x_iv := iv; x_c := []; x_ivs := tl (x_ivs s) |}, true) w p s' ->
    taken rep K o (s, f) (tagf K (x_iv s) (x_c s) ++ iv ++ w) p s'.

(** ** Timeouts *)
(** Behind how many bytes the timeouts are. *)
Fixpoint timeouts (off : Z) (l : list net) : list Z :=
  match l with
  | [] => []
  | NBytes bs :: r => timeouts (off + zlen bs) r
  | NTimeout :: r => off :: timeouts off r
  end.
(** No timeout directly behind a tag (with its IV). *)
Definition unsplit (K : cipher) (o : sopts) (s : pst) (plain : list Z) (T : list Z) : Prop :=
  forall p1 p2, plain = p1 ++ p2 -> due (so_k o) (after K o s p1) = true ->
    ~ In (zlen (wire K o s p1) + zlen (lead K o (after K o s p1))) T.
(** No timeout from the first byte of a tag to the byte behind it, for the tags
    that are followed by more data. *)
Definition quiet (K : cipher) (o : sopts) (s : pst) (plain : list Z) (T : list Z) : Prop :=
  forall p1 b p2 t, plain = p1 ++ b :: p2 -> due (so_k o) (after K o s p1) = true -> In t T ->
    t < zlen (wire K o s p1) \/ zlen (wire K o s p1) + zlen (lead K o (after K o s p1)) < t.
(** A caller that wants [want] bytes, asking for at most [n] of them at a time. *)
Fixpoint drain (K : cipher) (o : sopts) (r : rsock) (reqs : list (Z * bool)) (want : Z) : outcome (list Z * rsock) :=
  match reqs with
  | [] => Ret ([], r)
  | (n, full) :: t =>
      if want <=? 0 then Ret ([], r)
      else
        obind (sock_read_call K o r (Z.min n want) full) (fun x =>
        let '(bs, r1) := x in
        obind (drain K o r1 t (want - zlen bs)) (fun y => let '(more, r2) := y in Ret (bs ++ more, r2)))
  end.
