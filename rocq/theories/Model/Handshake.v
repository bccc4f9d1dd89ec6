(** The first exchange on a connection: the sender's settings message and what a
    receiver thread makes of it. The reply (file chunks, abort) is not here. *)
From Verif Require Export Model.SendStream.

(** SenderThread::sendSettings, SenderThread.cpp:208-245, from the thread's buffer
    to the bytes given to socket_->write. The result of encodeSettings is ignored
    there; with file chunks wanted the length written is kMinBufLength, whatever
    was encoded. *)
Definition sendSettings (v : Z) (s : settings) (buf : list Z) : outcome (list Z) :=
  match upd buf 0 SETTINGS_CMD with
  | None => Undef
  | Some buf0 =>
      obind (encodeSettings v s buf0 kMaxSettings 1) (fun r =>
      let toWrite := if st_sendFileChunks s then kMinBufLength else er_pos r in
      if zlen (er_buf r) <? toWrite then Undef else Ret (slice (er_buf r) 0 toWrite))
  end.

(** The receiver thread from READ_NEXT_CMD to the state behind PROCESS_SETTINGS_CMD,
    ReceiverThread.cpp:257-368. *)
Definition handshake (p : rparams) (c : rconn) : outcome (rconn * rnext) :=
  obind (readNextCmd p c) (fun x =>
  match x with
  | (c', GoSettings) => processSettingsCmd p c'
  | _ => Ret x
  end).
