(** Runs of the transfer model used as examples and counterexamples. *)
From Verif Require Export Proofs.TransferFacts.

Definition ablock (seq off size : Z) : source :=
  {| s_name := [97 + seq]; s_seqId := seq; s_fileSize := off + size; s_alloc := 0; s_prevSeqId := 0;
     s_offset := off; s_size := size; s_failed := OK |}.

(** The receiver listens on [n] ports; the sender connects to each of them. *)
Definition up1 (i : nat) : list tevent :=
  [TRecv i (IListen true); TConnect i; TAccept i 0 IFirst; TRecv i (ICmd (CSettings 1000 false))].
(** Thread [i] takes the first block of the queue and sends it whole. *)
Definition send1 (i : nat) : list tevent := [TTake i 0 true; TSent i (SentAll 50) 0].
(** The receiver's port [i] gives its connection up, and gives up for good. *)
Definition give_up (i : nat) : list tevent :=
  [TRecv i (IAcceptFail CONN_ERROR); TRecv i INone; TRecv i INone].
(** Sender and receiver finish port [i]. *)
Definition done1 (i : nat) : list tevent := [TDone i; TRecv i (ICmd CDone); TRecv i INone; TRecv i INone].
Definition end1 (i : nat) : list tevent := [TRecv i (IWrite true); TCmd i; TQuit i].

Definition ports2 (m : mode) (seqids : bool) : tparams := {| tp_mode := m; tp_seqids := seqids; tp_ports := [11; 12] |}.

(** Port 1 dies after 4 of 10 bytes of a block; port 0 loses its connection in
    the middle of another block, resumes it, and finishes what port 1 left. *)
Definition good_run : list tevent :=
  [TDiscover (ablock 1 0 10); TDiscover (ablock 2 0 20); TDiscover (ablock 3 5 7); TInit]
  ++ up1 0 ++ up1 1
  ++ send1 1 ++ [TRecv 1 (ICmd (CFile 1 0 (FBroken 4 true SOCKET_READ_ERROR PAccept)))] ++ give_up 1
  ++ [TFail 1; TEnd 1]
  ++ send1 0 ++ [TRecv 0 (ICmd (CFile 2 0 FVerified))]
  ++ [TTake 0 0 true; TSent 0 (SentPart WriteFailed 50 3) 3;
      TRecv 0 (ICmd (CFile 3 5 (FBroken 3 true SOCKET_READ_ERROR PAccept)));
      TConnect 0; TAccept 0 0 IAccept; TRecv 0 (IWrite true); TLocal 0]
  ++ send1 0 ++ [TRecv 0 (ICmd (CFile 3 8 FVerified))]
  ++ done1 0 ++ [TRecv 0 (IWrite true); TCmd 0; TGlobal 0]
  ++ send1 0 ++ [TRecv 0 (ICmd (CFile 1 4 FVerified))]
  ++ done1 0.

(** Port 1 breaks right after a block's header and resumes: its local checkpoint
    says 0 bytes of that block. It breaks again after 4 bytes and dies. *)
Definition refused_run : list tevent :=
  [TDiscover (ablock 1 0 10); TInit] ++ up1 0 ++ up1 1
  ++ send1 1 ++ [TRecv 1 (ICmd (CFile 1 0 (FBroken 0 true SOCKET_READ_ERROR PAccept)))]
  ++ [TFail 1; TConnect 1; TAccept 1 0 IAccept; TRecv 1 (IWrite true); TLocal 1]
  ++ send1 1 ++ [TRecv 1 (ICmd (CFile 1 0 (FBroken 4 true SOCKET_READ_ERROR PAccept)))] ++ give_up 1
  ++ [TFail 1; TEnd 1]
  ++ done1 0 ++ [TRecv 0 (IWrite true); TCmd 0; TGlobal 0]
  ++ done1 0 ++ end1 0.

(** Port 1 breaks after 4 bytes and resumes, and dies before the rest of the
    block arrives: its checkpoint still says 4 bytes. *)
Definition twice_run : list tevent :=
  [TDiscover (ablock 1 0 10); TInit] ++ up1 0 ++ up1 1
  ++ send1 1 ++ [TRecv 1 (ICmd (CFile 1 0 (FBroken 4 true SOCKET_READ_ERROR PAccept)))]
  ++ [TFail 1; TConnect 1; TAccept 1 0 IAccept; TRecv 1 (IWrite true); TLocal 1]
  ++ send1 1 ++ [TRecv 1 (ICmd CReadFail)] ++ give_up 1 ++ [TFail 1; TEnd 1]
  ++ done1 0 ++ [TRecv 0 (IWrite true); TCmd 0; TGlobal 0]
  ++ send1 0 ++ [TRecv 0 (ICmd (CFile 1 8 FVerified))]
  ++ done1 0 ++ end1 0.

(** Port 1 leaves after a socket error that is not retried. *)
Definition silent_run : list tevent :=
  [TDiscover (ablock 1 0 10); TInit] ++ up1 0 ++ up1 1 ++ send1 1
  ++ [TRecv 1 (ICmd CReadFail); TRecv 1 (INonRetryable UNEXPECTED_CMD_ERROR); TRecv 1 INone; TFail 1; TEnd 1]
  ++ done1 0 ++ end1 0.

(** Encryption with tags: port 1's block waits for its tag when port 0 is told
    the end; the tag then does not match. *)
Definition tag_run : list tevent :=
  [TDiscover (ablock 1 0 10); TInit] ++ up1 0 ++ up1 1 ++ send1 1
  ++ [TRecv 1 (ICmd (CFile 1 0 (FStored 10))); TDone 1; TRecv 1 (ICmd CDone); TRecv 1 INone]
  ++ done1 0 ++ end1 0
  ++ [TRecv 1 INone; TRecv 1 (IWrite true); TRecv 1 (IAckFail ENCRYPTION_ERROR)] ++ give_up 1.
