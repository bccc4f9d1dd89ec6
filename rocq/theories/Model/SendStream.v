(** The bytes a sender thread puts on a connection: settings, total size, blocks
    and the final DONE (SenderThread.cpp). What it does when a write fails, and
    what it reads back, is not here. *)
From Verif Require Export Model.RecvConn.

(** Two bytes of an int16_t, little endian (SenderThread.cpp:337-338). *)
Definition le16 (n : Z) : list Z := [n mod 256; (n / 256) mod 256].

(** A command of [cmd] bytes followed by what the encoder [E] wrote into a buffer
    of [max] bytes; [None] when the encoder fails. *)
Definition sent (cmd : list Z) (E : encoder) (max : Z) : option (list Z) :=
  match E (repeat 0 (Z.to_nat max)) max (zlen cmd) with
  | Ret r => if er_ok r then Some (cmd ++ slice (er_buf r) (zlen cmd) (er_pos r - zlen cmd)) else None
  | _ => None
  end.
(** sendSettings, SenderThread.cpp:208-245 (without file chunks). *)
Definition sent_settings (v : Z) (s : settings) : option (list Z) :=
  sent [SETTINGS_CMD] (encodeSettings v s) kMaxSettings.
(** sendSizeCmd, SenderThread.cpp:448-464. *)
Definition sent_size (n : Z) : option (list Z) := sent [SIZE_CMD] (encodeSize n) kMaxSize.
(** The header of sendOneByteSource, SenderThread.cpp:320-339: the length is
    stored over the two bytes left free. *)
Definition sent_header (v status : Z) (b : block_details) : option (list Z) :=
  match sent [FILE_CMD; status; 0; 0] (encodeHeader v b) kMaxHeader with
  | Some bs => Some (FILE_CMD :: status :: le16 (zlen bs) ++ skipn 4 bs)
  | None => None
  end.
(** The footer of sendOneByteSource, SenderThread.cpp:425-437; the checksum is an
    int32_t there. *)
Definition sent_footer (sum : Z) : option (list Z) := sent [FOOTER_CMD] (encodeFooter (to_i32 sum)) kMaxFooter.
(** sendDoneCmd, SenderThread.cpp:466-488: always kMinBufLength bytes of the
    thread's buffer, whatever [buf] held behind the command. *)
Definition sent_done (v status blocks bytes : Z) (buf : list Z) : option (list Z) :=
  match encodeDone v blocks bytes buf kMaxDone 2 with
  | Ret r => if er_ok r then Some (DONE_CMD :: status :: slice (er_buf r) 2 (kMinBufLength - 2)) else None
  | _ => None
  end.

(** One block with its data; [sk_size]: the size command was sent just before. *)
Record sblock := { sk_size : option Z; sk_status : Z; sk_block : block_details; sk_data : list Z }.
Definition ojoin (a b : option (list Z)) : option (list Z) :=
  match a, b with Some x, Some y => Some (x ++ y) | _, _ => None end.
Definition sent_block (v : Z) (sum : bool) (x : sblock) : option (list Z) :=
  ojoin (match sk_size x with Some n => sent_size n | None => Some [] end)
 (ojoin (sent_header v (sk_status x) (sk_block x))
 (ojoin (Some (sk_data x)) (if sum then sent_footer (crc32c (sk_data x) 0) else Some []))).
Fixpoint sent_blocks (v : Z) (sum : bool) (l : list sblock) (last : option (list Z)) : option (list Z) :=
  match l with
  | [] => last
  | x :: r => ojoin (sent_block v sum x) (sent_blocks v sum r last)
  end.
(** A whole connection. *)
Definition sent_stream (v : Z) (s : settings) (l : list sblock) (status blocks bytes : Z) (buf : list Z)
  : option (list Z) :=
  ojoin (sent_settings v s)
    (sent_blocks v (st_enableChecksum s) l (sent_done v status blocks bytes buf)).
