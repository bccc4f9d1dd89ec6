(** What may come out of a socket with encryption, and what it may put on the wire. *)
From Verif Require Export Model.SocketLife Spec.SocketSpec.
From Verif Require Import Model.Uri.

Definition encrypting (ty : Z) : Prop := ty = ENC_AES128_CTR \/ ty = ENC_AES128_GCM.
(** Sockets that have no connection: new ones, and ones that were used for [n]
    connections, with any calls, and closed. *)
Inductive used (K : cipher) : Z -> wdts -> Prop :=
| used_new ty lim supp k last ivs : used K 0 (newSocket ty lim supp k last ivs)
| used_again n s l acc ops bs s' tagIO ok :
    used K n s -> s_run K (setFd s l acc) ops = Ret (bs, s') ->
    used K (n + 1) (snd (close K s' tagIO ok)).
(** Calls before the end of the stream was asked for. *)
Definition streaming (op : sop) : Prop :=
  match op with ORead n _ => 0 < n | OWrite bs => 0 < zlen bs | OShutdown _ => True | OEnd => False end.
Fixpoint requests (l : list sop) : list (Z * bool) :=
  match l with [] => [] | ORead n f :: t => (n, f) :: requests t | _ :: t => requests t end.
Fixpoint written (l : list sop) : list Z :=
  match l with [] => [] | OWrite bs :: t => bs ++ written t | _ :: t => written t end.

(** The 22 bytes [x] of a settings command say: type [ty], first IV [iv], a tag every
    [k] bytes. [last] is the byte that happens to lie behind them. *)
Definition says (x : list Z) (last ty : Z) (iv : list Z) (k : Z) : Prop :=
  exists pos, decode_at decodeEncryptionSettings (x ++ [last]) 0 kEncryptionCmdLen = Ret (Some ((ty, iv, k), pos)).
(** [bs] was got from [net] under the key, [left] is still to be read: the settings come
    first, then the stream, in which every full interval is followed by its tag. The
    bytes [lost] and what stood in [extra] were read but not delivered. [st] is where
    the stream is. *)
Definition protected (K : cipher) (ty lim last : Z) (net bs lost extra left : list Z) (st : pst) : Prop :=
  exists x iv k w f,
    net = ENCRYPTION_CMD :: x ++ w ++ extra ++ left /\ zlen x = 22 /\ says x last ty iv k /\
    zlen iv = 16 /\ 0 <= k /\ (0 < k -> ty = ENC_AES128_GCM) /\
    taken true K {| so_k := k; so_lim := lim |} (pst0 iv [], false) w (bs ++ lost) (st, f).

(** The first bytes of a direction, and all of them: nothing before the first byte. *)
Definition settings (ty : Z) (iv : list Z) (k : Z) : list Z :=
  ENCRYPTION_CMD :: ty :: 16 :: iv ++ le_bytes 4 k.
Definition sent (K : cipher) (ty k lim : Z) (iv : list Z) (ivs : list (list Z)) (plain : list Z) : list Z :=
  match plain with
  | [] => []
  | _ => settings ty iv k ++ wire K {| so_k := k; so_lim := lim |} (pst0 iv ivs) plain
  end.
(** The tag at the end. *)
Definition end_tag (K : cipher) (ty k lim : Z) (iv : list Z) (ivs : list (list Z)) (plain : list Z) : list Z :=
  let st := after K {| so_k := k; so_lim := lim |} (pst0 iv ivs) plain in
  if ty =? ENC_AES128_GCM then tagf K (x_iv st) (x_c st) else [].
Definition read_or_write (op : sop) : Prop :=
  match op with ORead n _ => 0 < n | OWrite bs => 0 < zlen bs | OShutdown _ => False | OEnd => False end.
(** A caller that wants [want] bytes, asking for at most [n] of them at a time. *)
Fixpoint wants (K : cipher) (s : wdts) (reqs : list (Z * bool)) (want : Z) : outcome (list Z * wdts) :=
  match reqs with
  | [] => Ret ([], s)
  | (n, full) :: t =>
      if want <=? 0 then Ret ([], s)
      else
        obind (readWithTimeout K s (Z.min n want) full) (fun x =>
        let '(bs, s1) := x in
        obind (wants K s1 t (want - zlen bs)) (fun y => let '(more, s2) := y in Ret (bs ++ more, s2)))
  end.
(** No write after the end of the writes, no read after the end of the reads. *)
Fixpoint orderly (wend rend : bool) (l : list sop) : Prop :=
  match l with
  | [] => True
  | ORead n _ :: t => 0 < n /\ rend = false /\ orderly wend rend t
  | OWrite bs :: t => 0 < zlen bs /\ wend = false /\ orderly wend rend t
  | OShutdown _ :: t => orderly true rend t
  | OEnd :: t => orderly wend true t
  end.
