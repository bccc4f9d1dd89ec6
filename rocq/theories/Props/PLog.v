(** C17-C21: the transfer log. *)
From Verif Require Import Spec.LogSpec Proofs.LogFacts Model.Uri.
From Coq Require Import Lia String.
Open Scope Z_scope.

(** ** C17 *)

(** Writing an entry of any kind puts exactly its bytes at the front of the
    buffer when they fit, and reports failure otherwise; nothing beyond the
    stated limit is touched. *)
Theorem C17_encode e dest max :
  entry_fields_ok e -> (forall ts v rid ip c, e = LHeader ts v rid ip c -> v = 2) ->
  3 <= max <= zlen dest ->
  exists n d, encode_of e dest max = Ret (n, d) /\
    same_outside dest d 0 max /\
    (zlen (entry_bytes e) <= max -> n = zlen (entry_bytes e) /\ slice d 0 n = entry_bytes e) /\
    (max < zlen (entry_bytes e) -> n = -1).
Proof. exact (encode_spec e dest max). Qed.
Print Assumptions C17_encode.

(** An entry is read back with the same fields; with extra bytes or with bytes
    missing it is rejected. *)
Theorem C17_decode e t b : entry_fields_ok e -> entry_body e = t :: b ->
  decode_of t b = Ret (Some e) /\
  (forall q, q <> [] -> decode_of t (b ++ q) = Ret None) /\
  (forall p q, q <> [] -> b = p ++ q -> bytes_ok b -> decode_of t p = Ret None).
Proof. exact (decode_exact e t b). Qed.
Print Assumptions C17_decode.

(** Which entries fit the writer's buffer of 4129 bytes. *)
Theorem C17_fits e : entry_fields_ok e ->
  (match e with
   | LHeader _ v rid ip _ => v = 2 /\ zlen rid + zlen ip <= 4103
   | LCreate _ name _ _ => zlen name <= 4097
   | _ => True end) ->
  zlen (entry_bytes e) <= 4129.
Proof. exact (entry_fits e). Qed.
Print Assumptions C17_fits.

Example C17_ex :
  let e := LCreate 1700000000000 (bytes_of "dir/file") 3 (2 ^ 63 - 1) in
  entry_fields_ok e /\ zlen (entry_bytes e) = 28 /\
  encode_of e (repeat 7 40) 28 = Ret (28, entry_bytes e ++ repeat 7 12) /\
  (exists d, encode_of e (repeat 7 40) 27 = Ret (-1, d)).
Proof.
  split; [|vm_compute; repeat split; eexists; reflexivity].
  vm_compute; repeat split; discriminate.
Qed.

Definition exm (rid ip : list Z) : tlm :=
  {| tm_open := true; tm_file := file_of []; tm_rid := rid; tm_ip := ip; tm_config := 1;
     tm_entries := []; tm_status := INCONSISTENT_DIRECTORY; tm_headerWritten := false |}.

(** A recovery id that does not fit is not noticed: no header is written, yet
    the log counts as having one. *)
Theorem C17_long_header_refuted :
  exists rid m', writeLogHeader 5 (exm rid (bytes_of "::1")) = Ret m' /\
    tm_status m' = OK /\ tm_headerWritten m' = true /\ lf_data (tm_file m') = [].
Proof. exists (repeat 97 4200); eexists; vm_compute; repeat split. Qed.
Print Assumptions C17_long_header_refuted.

(** A file name that does not fit stops the process. *)
Theorem C17_long_name_refuted :
  exists m name, tm_open m = true /\ tm_headerWritten m = true /\
    addFileCreationEntry 5 name 0 10 m = Crash.
Proof.
  exists {| tm_open := true; tm_file := file_of []; tm_rid := []; tm_ip := []; tm_config := 1;
            tm_entries := []; tm_status := OK; tm_headerWritten := true |}, (repeat 97 4200).
  repeat split; vm_compute; reflexivity.
Qed.
Print Assumptions C17_long_name_refuted.

(** ** C18 *)

(** Cut a log of framed entries (of any content) at any byte: recovery gives
    what it gives for the whole entries before the cut; unless the log is
    rejected, the file is cut back to those entries before anything is
    appended, and a rejected file is left as it was. *)
Theorem C18_torn_tail now o bodies k ip :
  Forall body_ok bodies -> (k <= List.length (flat_map frame bodies))%nat -> po_parseOnly o = false ->
  let whole := flat_map frame (whole_prefix bodies k) in
  let cut := firstn k (flat_map frame bodies) in
  same_recovery (parseLog now o (file_of cut) ip) (parseLog now o (file_of whole) ip) /\
  (forall r, parseLog now o (file_of cut) ip = Ret r ->
     (pr_status r = INVALID_LOG -> lf_data (pr_file r) = cut) /\
     (pr_status r <> INVALID_LOG ->
      exists a, lf_data (pr_file r) = whole ++ a /\ lf_pos (pr_file r) = zlen (whole ++ a))).
Proof. exact (torn_tail now o bodies k ip). Qed.
Print Assumptions C18_torn_tail.

(** A session: header, a file of 10 bytes with two blocks, and one that is gone. *)
Definition exo : popts :=
  {| po_prealloc := true; po_dirTree := false; po_parseOnly := false;
     po_rid := bytes_of "id"; po_config := 1;
     po_disk := fun n => if str_eqb n (bytes_of "a") then Some 10
                         else if str_eqb n (bytes_of "big") then Some 100 else None |}.
Definition exes : list log_entry :=
  [LHeader 1 2 (bytes_of "id") (bytes_of "::1") 1;
   LCreate 2 (bytes_of "a") 4 10; LBlock 3 4 0 5; LCreate 3 (bytes_of "b") 5 7;
   LBlock 4 5 0 7; LBlock 5 4 5 5].

(** All cuts of that log, and what is recovered after the last entry was torn. *)
Example C18_ex :
  let n := List.length (log_bytes exes) in
  forallb (fun k =>
    match parseLog (fun _ => 9) exo (file_of (firstn k (log_bytes exes))) [],
          parseLog (fun _ => 9) exo
            (file_of (flat_map frame (whole_prefix (map entry_body exes) k))) [] with
    | Ret a, Ret b => (pr_status a =? OK) && (pr_status b =? OK)
                      && (List.length (pr_infos a) =? List.length (pr_infos b))%nat
                      && str_eqb (lf_data (pr_file a)) (lf_data (pr_file b))
    | _, _ => false
    end) (seq 0 (S n)) = true /\
  match parseLog (fun _ => 9) exo (file_of (firstn (n - 1) (log_bytes exes))) [] with
  | Ret r => pr_infos r = [{| fc_seqId := 4; fc_fileName := bytes_of "a"; fc_fileSize := 10;
                              fc_chunks := [{| iv_start := 0; iv_end := 5 |}] |}] /\
             lf_data (pr_file r) = log_bytes (removelast exes ++ [LInval 9 5])
  | _ => False
  end.
Proof. vm_compute; repeat split. Qed.

(** ** C19 *)

(** On any log of well-formed entries recovery ends normally. When it accepts
    the log, it reports exactly the files of the current session whose last
    incarnation is on disk, each with exactly the bytes logged for that
    incarnation, all inside the file on disk; the other files are marked as
    gone in the log. Otherwise it reports nothing and leaves the log alone. *)
Theorem C19_recovery now o es ip :
  po_parseOnly o = false -> Forall entry_ok es -> Forall block_in_range es ->
  (forall q, in_nat63 (now q)) ->
  exists r, parseLog now o (file_of (log_bytes es)) ip = Ret r /\
    (pr_status r = OK ->
       exists seg missing, current_session o es seg /\ faithful o seg (pr_infos r) /\
         (forall q, In q missing <-> gone o seg q) /\
         holds (pr_file r) (es ++ map (fun q => LInval (now q) q) missing)) /\
    (pr_status r <> OK -> pr_infos r = [] /\ lf_data (pr_file r) = log_bytes es).
Proof. exact (recovery_faithful now o es ip). Qed.
Print Assumptions C19_recovery.

Lemma exes_ok : Forall entry_ok exes /\ Forall block_in_range exes.
Proof.
  split; repeat constructor; vm_compute; try discriminate; repeat split; discriminate.
Qed.
Example C19_ex :
  match parseLog (fun _ => 9) exo (file_of (log_bytes exes)) [] with
  | Ret r => pr_status r = OK /\
             pr_infos r = [{| fc_seqId := 4; fc_fileName := bytes_of "a"; fc_fileSize := 10;
                              fc_chunks := [{| iv_start := 0; iv_end := 10 |}] |}]
  | _ => False
  end.
Proof. vm_compute; split; reflexivity. Qed.

(** A block beyond the logged size is reported when the file on disk is large
    enough. *)
Theorem C19_beyond_logged_size_refuted :
  exists es r f c, Forall entry_ok es /\ Forall block_in_range es /\
    parseLog (fun _ => 9) exo (file_of (log_bytes es)) [] = Ret r /\ pr_status r = OK /\
    In f (pr_infos r) /\ In c (fc_chunks f) /\
    In (LCreate 2 (fc_fileName f) (fc_seqId f) 20) es /\
    (forall ts z, ~ In (LResize ts (fc_seqId f) z) es) /\ iv_end c = 50.
Proof.
  exists [LHeader 1 2 (bytes_of "id") (bytes_of "::1") 1; LCreate 2 (bytes_of "big") 4 20;
          LBlock 3 4 40 10].
  eexists; exists {| fc_seqId := 4; fc_fileName := bytes_of "big"; fc_fileSize := 100;
                     fc_chunks := [{| iv_start := 40; iv_end := 50 |}] |},
                  {| iv_start := 40; iv_end := 50 |}.
  split; [repeat constructor; vm_compute; try discriminate; repeat split; discriminate|].
  split; [repeat constructor; vm_compute; discriminate|].
  split; [vm_compute; reflexivity|]; split; [reflexivity|].
  split; [left; reflexivity|]; split; [left; reflexivity|].
  split; [right; left; reflexivity|]; split; [|reflexivity].
  intros ts z H; cbn [In] in H; intuition discriminate.
Qed.
Print Assumptions C19_beyond_logged_size_refuted.

(** A block whose end exceeds the signed range is undefined behaviour. *)
Theorem C19_block_overflow_refuted :
  exists es, Forall entry_ok es /\
    parseLog (fun _ => 9) exo (file_of (log_bytes es)) [] = Undef.
Proof.
  exists [LHeader 1 2 (bytes_of "id") (bytes_of "::1") 1; LCreate 2 (bytes_of "big") 4 20;
          LBlock 3 4 (2 ^ 63 - 1) 10].
  split; [repeat constructor; vm_compute; try discriminate; repeat split; discriminate|].
  vm_compute; reflexivity.
Qed.
Print Assumptions C19_block_overflow_refuted.

(** A file invalidated and logged anew under the same id keeps the old size for
    resizes: growing it from its new size makes the whole log invalid. *)
Theorem C19_stale_size_refuted :
  exists es r, Forall entry_ok es /\ Forall block_in_range es /\
    es = [LHeader 1 2 (bytes_of "id") (bytes_of "::1") 1; LCreate 2 (bytes_of "big") 4 90;
          LInval 3 4; LCreate 4 (bytes_of "big") 4 20; LResize 5 4 30; LBlock 6 4 0 30] /\
    parseLog (fun _ => 9) exo (file_of (log_bytes es)) [] = Ret r /\
    pr_status r = INVALID_LOG /\ pr_infos r = [].
Proof.
  do 2 eexists.
  split; [|split; [|split; [reflexivity|]]].
  - repeat constructor; vm_compute; try discriminate; repeat split; discriminate.
  - repeat constructor; vm_compute; discriminate.
  - split; [vm_compute; reflexivity|split; reflexivity].
Qed.
Print Assumptions C19_stale_size_refuted.

(** A file of the log that is gone from the disk costs only its own pieces, but
    not if it had been resized: then the whole log is invalid and nothing of the
    other files is recovered. *)
Theorem C19_removed_resized_file_refuted :
  exists es r r', Forall entry_ok (es ++ [LResize 5 7 30]) /\ Forall block_in_range (es ++ [LResize 5 7 30]) /\
    In (LCreate 2 (bytes_of "gone") 7 20) es /\
    parseLog (fun _ => 9) exo (file_of (log_bytes es)) [] = Ret r /\
    pr_status r = OK /\ map fc_seqId (pr_infos r) = [4] /\
    parseLog (fun _ => 9) exo (file_of (log_bytes (es ++ [LResize 5 7 30]))) [] = Ret r' /\
    pr_status r' = INVALID_LOG /\ pr_infos r' = [].
Proof.
  exists [LHeader 1 2 (bytes_of "id") (bytes_of "::1") 1; LCreate 2 (bytes_of "gone") 7 20;
          LCreate 3 (bytes_of "big") 4 90; LBlock 4 4 0 30; LBlock 4 7 0 20].
  do 2 eexists.
  split; [repeat constructor; vm_compute; try discriminate; repeat split; discriminate|].
  split; [repeat constructor; vm_compute; discriminate|].
  split; [right; left; reflexivity|].
  split; [vm_compute; reflexivity|]. split; [reflexivity|]. split; [reflexivity|].
  split; [vm_compute; reflexivity|]. split; reflexivity.
Qed.
Print Assumptions C19_removed_resized_file_refuted.

(** ** C20 *)

(** After a header of another session or a directory invalidation, and no
    matching header since, nothing is reported. *)
Theorem C20_refused now o es1 r es2 ip :
  po_parseOnly o = false -> Forall entry_ok (es1 ++ r :: es2) ->
  Forall block_in_range (es1 ++ r :: es2) -> (forall q, in_nat63 (now q)) ->
  resets o r -> Forall (fun e => ~ matches o e) es2 ->
  exists res, parseLog now o (file_of (log_bytes (es1 ++ r :: es2))) ip = Ret res /\
    pr_status res <> OK /\ pr_infos res = [].
Proof. exact (recovery_refused now o es1 r es2 ip). Qed.
Print Assumptions C20_refused.

(** With a matching header later, whatever is reported is what the log from
    that header on gives. *)
Theorem C20_restarts now o es1 r skip h es3 ip :
  po_parseOnly o = false ->
  Forall entry_ok (es1 ++ r :: skip ++ h :: es3) ->
  Forall block_in_range (es1 ++ r :: skip ++ h :: es3) ->
  (forall q, in_nat63 (now q)) ->
  resets o r -> Forall (fun e => ~ matches o e) skip -> matches o h ->
  exists res res', parseLog now o (file_of (log_bytes (es1 ++ r :: skip ++ h :: es3))) ip = Ret res /\
    parseLog now o (file_of (log_bytes (h :: es3))) ip = Ret res' /\
    (pr_status res = OK -> pr_status res' = OK /\ pr_infos res = pr_infos res' /\
                           pr_ip res = pr_ip res').
Proof. exact (recovery_restarts now o es1 r skip h es3 ip). Qed.
Print Assumptions C20_restarts.

(** A sender from another address is refused, and the log then reports nothing. *)
Theorem C20_sender_changed now ts disabled cur m es o ip :
  in_nat63 ts -> (forall q, in_nat63 (now q)) ->
  tm_open m = true -> holds (tm_file m) es -> Forall entry_ok es -> Forall block_in_range es ->
  po_parseOnly o = false ->
  exists ok m', verifySenderIp ts disabled cur m = Ret (ok, m') /\
    (ok = true <-> disabled = true \/ tm_ip m = [] \/ tm_ip m = cur) /\
    (ok = true -> tm_file m' = tm_file m) /\
    (ok = false -> holds (tm_file m') (es ++ [LDirInval ts]) /\
       exists res, parseLog now o (file_of (lf_data (tm_file m'))) ip = Ret res /\
         pr_status res <> OK /\ pr_infos res = []).
Proof. exact (sender_changed now ts disabled cur m es o ip). Qed.
Print Assumptions C20_sender_changed.

(** A log that recovery finds to be of another session or directory is marked so
    before anything else is written to it: from then on nothing in it counts,
    whatever the next session asks for. *)
Theorem C20_marked now ts o m es code infos m' o' ip :
  in_nat63 ts -> (forall q, in_nat63 (now q)) -> po_parseOnly o = false -> po_parseOnly o' = false ->
  tm_open m = true -> tm_file m = file_of (log_bytes es) -> Forall entry_ok es -> Forall block_in_range es ->
  parseVerifyAndFix now ts o m = Ret (code, infos, m') -> code = INCONSISTENT_DIRECTORY ->
  infos = [] /\ tm_open m' = true /\ tm_status m' = INCONSISTENT_DIRECTORY /\
  lf_data (tm_file m') = log_bytes (es ++ [LDirInval ts]) /\
  exists res, parseLog now o' (file_of (lf_data (tm_file m'))) ip = Ret res /\
    pr_status res <> OK /\ pr_infos res = [].
Proof. exact (inconsistent_marked now ts o m es code infos m' o' ip). Qed.
Print Assumptions C20_marked.

Definition exstatus (m : outcome presult) : option (Z * list Z) :=
  match m with Ret r => Some (pr_status r, map fc_seqId (pr_infos r)) | _ => None end.
Example C20_ex :
  let other := LHeader 6 2 (bytes_of "other") (bytes_of "::1") 1 in
  let h := LHeader 7 2 (bytes_of "id") (bytes_of "::1") 1 in
  resets exo other /\ matches exo h /\
  exstatus (parseLog (fun _ => 9) exo (file_of (log_bytes (exes ++ [other; LCreate 1 (bytes_of "a") 9 10]))) [])
    = Some (INCONSISTENT_DIRECTORY, []) /\
  exstatus (parseLog (fun _ => 9) exo
    (file_of (log_bytes (exes ++ [LDirInval 6; h; LCreate 1 (bytes_of "a") 9 10]))) []) = Some (OK, [9]).
Proof.
  cbv zeta; split; [|split; [vm_compute; split; reflexivity|split; vm_compute; reflexivity]].
  intros [H _]; discriminate H.
Qed.

(** Another session's log found by this one. *)
Example C20_marked_ex :
  let m := {| tm_open := true; tm_file := file_of (log_bytes [LHeader 6 2 (bytes_of "other") (bytes_of "::1") 1]);
              tm_rid := bytes_of "id"; tm_ip := []; tm_config := 1; tm_entries := []; tm_status := OK;
              tm_headerWritten := false |} in
  exists m', parseVerifyAndFix (fun _ => 9) 8 exo m = Ret (INCONSISTENT_DIRECTORY, [], m') /\
    lf_data (tm_file m') = log_bytes [LHeader 6 2 (bytes_of "other") (bytes_of "::1") 1; LDirInval 8].
Proof. eexists. split; vm_compute; reflexivity. Qed.

(** ** C21 *)

(** When every recovered file is complete, compaction succeeds and recovery
    from the compacted log gives the same files, names, sizes, pieces and
    sender address. [es1] is on disk, [es2] still in memory. *)
Theorem C21_compaction now now' ts o m es1 es2 r ip :
  (forall q, in_nat63 (now q)) -> (forall q, in_nat63 (now' q)) -> in_nat63 ts ->
  disk_ok o ->
  tm_open m = true -> holds (tm_file m) es1 -> tm_entries m = map entry_bytes es2 ->
  Forall entry_ok (es1 ++ es2) -> Forall block_in_range (es1 ++ es2) -> es1 ++ es2 <> [] ->
  in_nat63 (tm_config m) ->
  parseLog now (own_opts o m) (file_of (log_bytes (es1 ++ es2))) (tm_ip m) = Ret r ->
  pr_status r = OK -> Forall complete (pr_infos r) ->
  zlen (tm_rid m) + zlen (pr_ip r) <= 4103 ->
  exists m' r', compactLog now ts o m = Ret m' /\ tm_entries m' = [] /\
    parseLog now' (own_opts o m) (file_of (lf_data (tm_file m'))) ip = Ret r' /\
    pr_status r' = OK /\ pr_infos r' = pr_infos r /\ pr_ip r' = pr_ip r.
Proof. exact (compaction now now' ts o m es1 es2 r ip). Qed.
Print Assumptions C21_compaction.

Example C21_ex :
  let m := {| tm_open := true;
              tm_file := {| lf_data := log_bytes exes; lf_pos := zlen (log_bytes exes) |};
              tm_rid := bytes_of "id"; tm_ip := bytes_of "::1"; tm_config := 1;
              tm_entries := [entry_bytes (LCreate 8 (bytes_of "big") 2 100);
                             entry_bytes (LBlock 9 2 60 40); entry_bytes (LBlock 9 2 0 60)];
              tm_status := OK; tm_headerWritten := true |} in
  match compactLog (fun _ => 9) 11 exo m with
  | Ret m' => lf_data (tm_file m') =
      log_bytes [LHeader 11 2 (bytes_of "id") (bytes_of "::1") 1;
                 LCreate 9 (bytes_of "big") 2 100; LBlock 9 2 0 100;
                 LCreate 9 (bytes_of "a") 4 10; LBlock 9 4 0 10]
  | _ => False
  end.
Proof. vm_compute; reflexivity. Qed.

(** Compacting a log that is still empty writes a header without a sender
    address, which later recovery rejects as a damaged log. *)
Theorem C21_empty_log_refuted :
  exists m m' r r', tm_open m = true /\ tm_file m = file_of [] /\ tm_entries m = [] /\
    parseLog (fun _ => 9) (own_opts exo m) (file_of []) (tm_ip m) = Ret r /\ pr_status r = OK /\
    compactLog (fun _ => 9) 11 exo m = Ret m' /\
    parseLog (fun _ => 9) (own_opts exo m) (file_of (lf_data (tm_file m'))) [] = Ret r' /\
    pr_status r' = INVALID_LOG.
Proof.
  exists (exm (bytes_of "id") []); do 3 eexists.
  split; [reflexivity|]; split; [reflexivity|]; split; [reflexivity|].
  split; [vm_compute; reflexivity|]; split; [reflexivity|].
  split; [vm_compute; reflexivity|]; split; [vm_compute; reflexivity|reflexivity].
Qed.
Print Assumptions C21_empty_log_refuted.
