(** The meaning of the byte stream of a connection, without any buffer: what a
    receiver must do with the bytes [u] still to be processed. *)
From Verif Require Export Model.ProtocolCodec Model.Stats Model.RecvConn.

(** What the receiver did, byte by byte: how the bytes of a block were cut into
    writes does not matter, nor when tags came in. [kv]: keep confirmations. *)
Inductive letter := LByte (b : Z) | LEv (e : revent).
Definition letters (kv : bool) (e : revent) : list letter :=
  match e with
  | RWrite bs => map LByte bs
  | RTag => []
  | RVerified _ => if kv then [LEv e] else []
  | _ => [LEv e]
  end.
Definition seen (kv : bool) (l : list revent) : list letter := flat_map (letters kv) l.

(** Mode of the connection; [ss_slack]: bytes of settings and size commands since
    the last block. *)
Record smode := { ss_version : Z; ss_checksum : bool; ss_slack : Z }.
(** [SNext]: go on with the rest; [SStop]: the connection's loop ends. *)
Inductive sres :=
| SNext (evs : list revent) (m : smode) (rest : list Z)
| SStop (evs : list revent) (go : rnext).

(** [None] stands for traffic no sender produces and for the limits of the
    property: a settings command longer than 256 bytes or more than 1000 bytes of
    such commands between blocks, a header longer than 256 bytes, bytes sent
    after DONE. *)
Definition spec_settings (p : rparams) (m : smode) (u : list Z) : option sres :=
  match decodeVersion (slice u 1 9) with
  | Ret (Some (sv, r)) =>
      match settings_version (ss_version m) sv with
      | inl go => Some (SStop [] go)
      | inr v =>
          let k := 10 - zlen r in
          match decodeSettings_body v (slice u k (256 - k)) with
          | Ret (Some (s, r2)) =>
              if list_eq_dec Z.eq_dec (st_transferId s) (rp_id p) then
                if st_sendFileChunks s then Some (SStop [RSettings s] GoChunks)
                else
                  let len := 256 - zlen r2 in
                  if ss_slack m + len <=? 1000
                  then Some (SNext [RSettings s]
                         {| ss_version := v; ss_checksum := st_enableChecksum s; ss_slack := ss_slack m + len |}
                         (skipn (Z.to_nat len) u))
                  else None
              else Some (SStop [] (GoAbort ID_MISMATCH))
          | _ => None
          end
      end
  | _ => Some (SStop [] (GoFinish PROTOCOL_ERROR))
  end.
Definition spec_size (m : smode) (u : list Z) : option sres :=
  match decodeSize (slice u 1 10) with
  | Ret (Some (n, r)) =>
      let len := 11 - zlen r in
      if ss_slack m + len <=? 1000
      then Some (SNext [RSize n]
             {| ss_version := ss_version m; ss_checksum := ss_checksum m; ss_slack := ss_slack m + len |}
             (skipn (Z.to_nat len) u))
      else None
  | _ => Some (SStop [] (GoFinish PROTOCOL_ERROR))
  end.
Definition spec_done (m : smode) (u : list Z) : option sres :=
  if zlen u =? 256 then
    match rd u 1, decodeDone (ss_version m) (-1) (slice u 2 20) with
    | Some st, Ret (Some (nb, _)) => Some (SStop [RDone st (fst nb) (snd nb)] GoWait)
    | _, _ => Some (SStop [] (GoFinish PROTOCOL_ERROR))
    end
  else None.
(** The footer of block [b] whose data has checksum [sum]. *)
Definition spec_footer (m : smode) (b : block_details) (sum : Z) (u : list Z) : sres :=
  if zlen u <? 256 then SStop [] (GoAccept SOCKET_READ_ERROR)
  else
    match u with
    | c :: _ =>
        if c =? FOOTER_CMD then
          match decodeFooter (slice u 1 10) with
          | Ret (Some (got, r)) =>
              if to_i32 sum =? got
              then SNext [RFooter got; RVerified b]
                     {| ss_version := ss_version m; ss_checksum := ss_checksum m; ss_slack := 11 |}
                     (skipn (Z.to_nat (11 - zlen r)) u)
              else SStop [] (GoAccept CHECKSUM_MISMATCH)
          | _ => SStop [] (GoFinish PROTOCOL_ERROR)
          end
        else SStop [] (GoFinish PROTOCOL_ERROR)
    | [] => SStop [] (GoAccept SOCKET_READ_ERROR)
    end.
Definition prepend (evs : list revent) (r : sres) : sres :=
  match r with
  | SNext e m rest => SNext (evs ++ e) m rest
  | SStop e go => SStop (evs ++ e) go
  end.
(** A block whose header [b] was read; [u]: the bytes after the header. *)
Definition spec_block (p : rparams) (m : smode) (b : block_details) (u : list Z) : sres :=
  if bd_dataSize b <=? zlen u then
    let data := firstn (Z.to_nat (bd_dataSize b)) u in
    let rest := skipn (Z.to_nat (bd_dataSize b)) u in
    prepend [RHeader b; RWrite data; RStored]
      (if ss_checksum m then spec_footer m b (crc32c data 0) rest
       else SNext (if rp_tags p then [] else [RVerified b])
              {| ss_version := ss_version m; ss_checksum := ss_checksum m; ss_slack := 0 |} rest)
  else
    SStop (RHeader b :: RWrite u ::
           (if negb (rp_tags p) && negb (ss_checksum m) then [RPartial b (zlen u)] else []))
      (GoAccept SOCKET_READ_ERROR).
Definition spec_file (p : rparams) (m : smode) (u : list Z) : option sres :=
  match rd u 2, rd u 3 with
  | Some b0, Some b1 =>
      let hlen := int16_le b0 b1 in
      if hlen <=? 0 then Some (SStop [] (GoFinish PROTOCOL_ERROR))
      else if 256 <? hlen then None
      else
        match decodeHeader (ss_version m) (slice u 4 (hlen - 4)) with
        | Ret (Some (b, [])) =>
            if hlen <? 4 then Some (SStop [] (GoFinish PROTOCOL_ERROR))
            else if (bd_alloc b =? TO_BE_DELETED) && (negb (bd_fileSize b =? 0) || negb (bd_dataSize b =? 0))
            then Some (SStop [] (GoFinish PROTOCOL_ERROR))
            else Some (spec_block p m b (skipn (Z.to_nat hlen) u))
        | _ => Some (SStop [] (GoFinish PROTOCOL_ERROR))
        end
  | _, _ => None
  end.
Definition spec_cmd (p : rparams) (m : smode) (u : list Z) : option sres :=
  if zlen u <? 256 then Some (SStop [] (GoAccept SOCKET_READ_ERROR))
  else
    match u with
    | c :: _ =>
        if c =? DONE_CMD then spec_done m u
        else if c =? FILE_CMD then spec_file p m u
        else if c =? SETTINGS_CMD then spec_settings p m u
        else if c =? SIZE_CMD then spec_size m u
        else Some (SStop [] (GoFinish PROTOCOL_ERROR))
    | [] => None
    end.
(** The whole stream. *)
Inductive spec_stream (p : rparams) : smode -> list Z -> list revent -> rnext -> Prop :=
| ss_stop m u evs go : spec_cmd p m u = Some (SStop evs go) -> spec_stream p m u evs go
| ss_next m u evs m' rest evs' go :
    spec_cmd p m u = Some (SNext evs m' rest) -> spec_stream p m' rest evs' go ->
    spec_stream p m u (evs ++ evs') go.
