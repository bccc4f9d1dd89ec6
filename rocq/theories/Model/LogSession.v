(** One session of the transfer log: TransferLogManager with its writer thread, as the
    receiver drives it from startNewGlobalSession (Receiver.cpp:71-90) to
    fixAndCloseTransferLog (514-556), with resumption based on the log.

    Simplified: the receiver's threads are there only through what they do to the log:
    the funnel that elects who writes the header, and the entries, in the order in
    which the mutex of the manager admits them. The compaction at the end is in
    Model/TransferLog.v. Writes of single entries (header, directory invalidation)
    succeed; the write of a batch may fail after any number of bytes. The fields read
    without the mutex (headerWritten_, fd_) are read when the entry is added. *)
From Verif Require Export Model.TransferLog.
Open Scope Z_scope.

(** The entries the receiver's threads add. *)
Inductive log_add :=
| AddCreation (ts : Z) (name : list Z) (seqId size : Z)
| AddBlock (ts seqId offset size : Z)
| AddResize (ts seqId size : Z)
| AddInvalidation (ts seqId : Z).
(** The four functions, TransferLogManager.cpp:495-548. *)
Definition do_add (a : log_add) (m : tlm) : outcome tlm :=
  match a with
  | AddCreation ts name q z => addFileCreationEntry ts name q z m
  | AddBlock ts q o z => addBlockWriteEntry ts q o z m
  | AddResize ts q z => addFileResizeEntry ts q z m
  | AddInvalidation ts q => addFileInvalidationEntry ts q m
  end.

(** The writer thread, TransferLogManager.cpp:389-418: not started or joined; waiting
    on conditionFinished_; in write() with its copy of the entries; returned. *)
Inductive lwriter := WNone | WWaiting | WWriting | WEnded.
(** SEND_FILE_CHUNKS_FUNNEL (Funnel, util/ThreadsController.cpp:70-105) together with
    the place of the thread it elected: nobody elected; elected by its first file
    command and about to invalidate the directory (ReceiverThread.cpp:395-404 and
    Receiver.cpp:489-504); elected by a request for the chunks and serving it
    (ReceiverThread.cpp:755-826); about to write the header (Receiver.cpp:505-511);
    about to notify; done. *)
Inductive lfunnel := FuStart | FuInvalidate | FuChunks | FuHeader | FuNotify | FuEnd.

Record lses := {
  ls_m : tlm;
  ls_writer : lwriter;
  ls_batch : list (list Z);   (* [entries] of the writer thread *)
  ls_last : bool;             (* its [finished] *)
  ls_finished : bool;         (* finished_ *)
  ls_funnel : lfunnel;
  ls_closing : bool           (* the receiver's threads have been joined *)
}.

(** startThread, TransferLogManager.cpp:289-300, then verifySenderIp:
    Receiver.cpp:81-87. *)
Definition ls_start (ts : Z) (disabled : bool) (peer : list Z) (m : tlm) : outcome lses :=
  let writer := if tm_status m =? OK then WWaiting else WNone in
  obind (verifySenderIp ts disabled peer m) (fun r =>
  Ret {| ls_m := snd r; ls_writer := writer; ls_batch := []; ls_last := false;
         ls_finished := false; ls_funnel := FuStart; ls_closing := false |}).

Inductive lev :=
| LvFileCmd              (* getStatus() returns FUNNEL_START in processFileCmd *)
| LvChunks               (* ... and in sendFileChunks *)
| LvChunksFail           (* notifyFail *)
| LvChunksSent           (* the peer has acknowledged the chunks *)
| LvInvalidate (ts : Z)
| LvHeader (ts : Z)
| LvNotify               (* notifySuccess *)
| LvAdd (a : log_add)
| LvTake                 (* the writer wakes up, 400-411 *)
| LvWrite                (* its write() succeeds *)
| LvWriteFail (k : nat)  (* its write() stops after k bytes, 380-384 *)
| LvShutdown             (* shutdownThread 302-311, called by closeLog *)
| LvJoin
| LvClose.               (* close(), 345-351 *)

Definition ls_with_m (s : lses) (m : tlm) (f : lfunnel) : lses :=
  {| ls_m := m; ls_writer := ls_writer s; ls_batch := ls_batch s; ls_last := ls_last s;
     ls_finished := ls_finished s; ls_funnel := f; ls_closing := ls_closing s |}.
Definition ls_writes (s : lses) (m : tlm) (w : lwriter) (batch : list (list Z)) (last : bool) : lses :=
  {| ls_m := m; ls_writer := w; ls_batch := batch; ls_last := last;
     ls_finished := ls_finished s; ls_funnel := ls_funnel s; ls_closing := ls_closing s |}.
Definition tm_closed (m : tlm) : tlm :=
  {| tm_open := false; tm_file := tm_file m; tm_rid := tm_rid m; tm_ip := tm_ip m;
     tm_config := tm_config m; tm_entries := tm_entries m; tm_status := tm_status m;
     tm_headerWritten := tm_headerWritten m |}.
Definition olift {A B} (f : A -> B) (m : outcome A) : option (outcome B) :=
  Some (obind m (fun a => Ret (f a))).

(** [None]: the event cannot happen now. *)
Definition ls_step (s : lses) (e : lev) : option (outcome lses) :=
  let m := ls_m s in
  match e, ls_funnel s, ls_closing s with
  | LvFileCmd, FuStart, false => Some (Ret (ls_with_m s m FuInvalidate))
  | LvChunks, FuStart, false => Some (Ret (ls_with_m s m FuChunks))
  | LvChunksFail, FuChunks, false => Some (Ret (ls_with_m s m FuStart))
  | LvChunksSent, FuChunks, false => Some (Ret (ls_with_m s m FuHeader))
  | LvInvalidate ts, FuInvalidate, false =>
      olift (fun m' => ls_with_m s m' FuHeader) (invalidateDirectory ts m)
  | LvHeader ts, FuHeader, false => olift (fun m' => ls_with_m s m' FuNotify) (writeLogHeader ts m)
  | LvNotify, FuNotify, false => Some (Ret (ls_with_m s m FuEnd))
  | LvAdd a, f, false => olift (fun m' => ls_with_m s m' f) (do_add a m)
  | LvTake, _, _ =>
      match ls_writer s with
      | WWaiting => Some (Ret (ls_writes s (tm_with_entries m []) WWriting (tm_entries m) (ls_finished s)))
      | _ => None
      end
  | LvWrite, _, _ =>
      match ls_writer s with
      | WWriting => Some (Ret (ls_writes s (tm_with_file m (fwrite (tm_file m) (concat (ls_batch s))))
                                 (if ls_last s then WEnded else WWaiting) [] (ls_last s)))
      | _ => None
      end
  | LvWriteFail k, _, _ =>
      match ls_writer s with
      | WWriting =>
          if (k <? length (concat (ls_batch s)))%nat
          then Some (Ret (ls_writes s (tm_with_file m (fwrite (tm_file m) (firstn k (concat (ls_batch s)))))
                            WEnded [] (ls_last s)))
          else None
      | _ => None
      end
  | LvShutdown, _, false =>
      Some (Ret {| ls_m := m; ls_writer := ls_writer s; ls_batch := ls_batch s; ls_last := ls_last s;
                   ls_finished := match ls_writer s with WNone => ls_finished s | _ => true end;
                   ls_funnel := ls_funnel s; ls_closing := true |})
  | LvJoin, _, true =>
      match ls_writer s with
      | WEnded => Some (Ret (ls_writes s m WNone (ls_batch s) (ls_last s)))
      | _ => None
      end
  | LvClose, _, true =>
      match ls_writer s, tm_open m with
      | WNone, true => Some (Ret (ls_with_m s (tm_closed m) (ls_funnel s)))
      | _, _ => None
      end
  | _, _, _ => None
  end.
Fixpoint ls_run (evs : list lev) (s : lses) : option (outcome lses) :=
  match evs with
  | [] => Some (Ret s)
  | e :: r => match ls_step s e with Some (Ret s') => ls_run r s' | o => o end
  end.
(** From the end of the recovery on. *)
Definition session (ts : Z) (disabled : bool) (peer : list Z) (m : tlm) (evs : list lev) : option (outcome lses) :=
  match ls_start ts disabled peer m with
  | Ret s => ls_run evs s
  | o => Some o
  end.
