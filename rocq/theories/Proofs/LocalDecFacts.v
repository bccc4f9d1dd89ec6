(** A decoder's result depends only on the bytes it uses. *)
From Verif Require Import Model.ProtocolCodec Spec.CodecSpec Spec.ProtocolSpec Proofs.BytesFacts
  Proofs.VarintFacts Proofs.ProtocolCodecFacts.

Definition LocalDec {A} (D : decoder A) : Prop :=
  forall br v rest, D br = Ret (Some (v, rest)) ->
  exists used, br = used ++ rest /\ Decodes D v used.

Lemma decU64_loop_pos n : forall data datalen p val shift v pos,
  decU64_loop n data datalen p val shift = Ret (DOk v pos) -> p < pos.
Proof.
  induction n as [|n IH]; intros data datalen p val shift v pos H; cbn [decU64_loop] in H;
    destruct (rd data p) as [b|]; try discriminate.
  - injection H as <- <-; lia.
  - destruct (Z.land b 128 =? 0); [injection H as <- <-; lia|].
    cbv zeta in H. destruct (datalen <=? p + 1); [discriminate|].
    apply IH in H; lia.
Qed.
Lemma decU64_loop_local n : forall data datalen p val shift v pos data' datalen',
  decU64_loop n data datalen p val shift = Ret (DOk v pos) ->
  (forall i, 0 <= i < pos -> rd data' i = rd data i) -> pos <= datalen' -> 0 <= p ->
  decU64_loop n data' datalen' p val shift = Ret (DOk v pos).
Proof.
  induction n as [|n IH]; intros data datalen p val shift v pos data' datalen' H Hd Hl Hp.
  - pose proof (decU64_loop_pos _ _ _ _ _ _ _ _ H). cbn [decU64_loop] in *.
    rewrite Hd by lia. exact H.
  - pose proof (decU64_loop_pos _ _ _ _ _ _ _ _ H). cbn [decU64_loop] in *.
    rewrite Hd by lia. destruct (rd data p) as [b|]; [|discriminate].
    destruct (Z.land b 128 =? 0); [exact H|]. cbv zeta in *.
    destruct (Z.leb_spec datalen (p + 1)); [discriminate|].
    pose proof (decU64_loop_pos _ _ _ _ _ _ _ _ H).
    destruct (Z.leb_spec datalen' (p + 1)); [lia|].
    eapply IH; try eassumption; lia.
Qed.

Lemma decodeVarU64_local data v pos data' : decodeVarU64 data (zlen data) 0 = Ret (DOk v pos) ->
  (forall i, 0 <= i < pos -> rd data' i = rd data i) -> pos <= zlen data' ->
  1 <= pos /\ decodeVarU64 data' (zlen data') 0 = Ret (DOk v pos).
Proof.
  unfold decodeVarU64. cbn [Z.ltb Z.compare]. intros H Hd Hl.
  destruct (Z.leb_spec (zlen data) 0); [discriminate|].
  pose proof (decU64_loop_pos _ _ _ _ _ _ _ _ H).
  split; [lia|]. destruct (Z.leb_spec (zlen data') 0); [lia|].
  eapply decU64_loop_local; try eassumption; lia.
Qed.

Lemma advance_local {A} br pos (a v : A) rest : advance br pos v = Ret (Some (a, rest)) ->
  1 <= pos -> a = v /\ rest = skipn (Z.to_nat pos) br /\ pos <= zlen br.
Proof.
  unfold advance. intros H Hp. destruct (Z.ltb_spec (zlen br) pos); [discriminate|].
  injection H as <- <-. auto.
Qed.
Lemma advance_app {A} used rest (v : A) :
  advance (used ++ rest) (zlen used) v = Ret (Some (v, rest)).
Proof.
  unfold advance. rewrite zlen_app. pose proof (zlen_nonneg rest).
  destruct (Z.ltb_spec (zlen used + zlen rest) (zlen used)); [lia|].
  rewrite skipn_zlen_app. reflexivity.
Qed.
Lemma zlen_firstn_le {A} (l : list A) n : 0 <= n <= zlen l -> zlen (firstn (Z.to_nat n) l) = n.
Proof. intros. rewrite zlen_firstn; lia. Qed.

Lemma Local_UInt64 : LocalDec decodeUInt64.
Proof.
  intros br v rest H. unfold decodeUInt64 in H.
  destruct (decodeVarU64 br (zlen br) 0) as [[w pos|]| |] eqn:E; try discriminate.
  cbn [obind] in H. destruct (Z.ltb_spec pos 1); [discriminate|].
  apply advance_local in H as (-> & -> & Hle); [|lia].
  exists (firstn (Z.to_nat pos) br). split; [symmetry; apply firstn_skipn|].
  intros r2. unfold decodeUInt64. pose proof (zlen_firstn_le br pos ltac:(lia)) as HL.
  destruct (decodeVarU64_local br w pos (firstn (Z.to_nat pos) br ++ r2) E) as [_ ->].
  - intros i Hi. rewrite rd_app_l by lia. apply rd_firstn; lia.
  - rewrite zlen_app, HL. pose proof (zlen_nonneg r2); lia.
  - cbn [obind]. destruct (Z.ltb_spec pos 1); [lia|].
    rewrite <- HL at 2. apply advance_app.
Qed.
Lemma Local_Int64C : LocalDec decodeInt64C.
Proof.
  intros br v rest H. unfold decodeInt64C in H.
  destruct (decodeUInt64 br) as [[[w r]|]| |] eqn:E; try discriminate. cbn [obind] in H.
  destruct (2 ^ 63 - 1 <? w) eqn:L; [discriminate|]. injection H as <- <-.
  destruct (Local_UInt64 _ _ _ E) as (u & -> & D). exists u; split; [reflexivity|].
  intros r2. unfold decodeInt64C. rewrite D. cbn [obind]. rewrite L. reflexivity.
Qed.
Lemma Local_Int32C : LocalDec decodeInt32C.
Proof.
  intros br v rest H. unfold decodeInt32C in H.
  destruct (decodeInt64C br) as [[[w r]|]| |] eqn:E; try discriminate. cbn [obind] in H.
  destruct ((2 ^ 31 - 1 <? w) || (w <? 0)) eqn:L; [discriminate|]. injection H as <- <-.
  destruct (Local_Int64C _ _ _ E) as (u & -> & D). exists u; split; [reflexivity|].
  intros r2. unfold decodeInt32C. rewrite D. cbn [obind]. rewrite L. reflexivity.
Qed.
Lemma Local_Byte : LocalDec decodeByte.
Proof.
  intros [|b br] v rest H; [discriminate|]. injection H as <- <-.
  exists [b]; split; [reflexivity|apply Decodes_Byte].
Qed.
Lemma Local_String : LocalDec decodeString.
Proof.
  intros br v rest H. unfold decodeString in H.
  destruct (decodeUInt64 br) as [[[w r]|]| |] eqn:E; try discriminate. cbn [obind] in H.
  destruct (Z.ltb_spec (zlen r) w) as [L|L]; [discriminate|]. injection H as <- <-.
  destruct (Local_UInt64 _ _ _ E) as (u & -> & D).
  exists (u ++ firstn (Z.to_nat w) r). split.
  - rewrite <- app_assoc, firstn_skipn. reflexivity.
  - intros r2. unfold decodeString. rewrite <- app_assoc, D. cbn [obind].
    pose proof (zlen_nonneg r2) as N2.
    assert (HL : zlen (firstn (Z.to_nat w) r) = Z.max 0 w).
    { unfold zlen in *. rewrite firstn_length. lia. }
    rewrite zlen_app. destruct (Z.ltb_spec (zlen (firstn (Z.to_nat w) r) + zlen r2) w); [lia|].
    assert (HN : Z.to_nat w = length (firstn (Z.to_nat w) r)).
    { unfold zlen in HL. lia. }
    set (x := firstn (Z.to_nat w) r) in *. rewrite HN.
    rewrite firstn_app, Nat.sub_diag, firstn_all, app_nil_r.
    rewrite skipn_app, Nat.sub_diag, skipn_all. reflexivity.
Qed.
Lemma Local_ret {A} (a : A) : LocalDec (dret a).
Proof. intros br v rest H. injection H as <- <-. exists []; split; [reflexivity|apply Decodes_ret]. Qed.
Lemma Local_bind {A B} (D : decoder A) (f : A -> decoder B) :
  LocalDec D -> (forall a, LocalDec (f a)) -> LocalDec (dbind D f).
Proof.
  intros HD Hf br v rest H. unfold dbind in H.
  destruct (D br) as [[[a r]|]| |] eqn:E; try discriminate. cbn [obind] in H.
  destruct (HD _ _ _ E) as (u1 & -> & D1). destruct (Hf a _ _ _ H) as (u2 & -> & D2).
  exists (u1 ++ u2). split; [apply app_assoc|]. eapply Decodes_bind; eassumption.
Qed.
Lemma Local_Header v : LocalDec (decodeHeader v).
Proof.
  unfold decodeHeader.
  apply Local_bind; [apply Local_String|intros name].
  apply Local_bind; [apply Local_Int64C|intros a1].
  apply Local_bind; [apply Local_Int64C|intros a2].
  apply Local_bind; [apply Local_Int64C|intros a3].
  apply Local_bind; [apply Local_Int64C|intros a4].
  cbv zeta. destruct (HEADER_FLAG_AND_PREV_SEQ_ID_VERSION <=? v); [|apply Local_ret].
  apply Local_bind; [apply Local_Byte|intros fl]. cbv zeta.
  destruct ((Z.land fl 7 =? EXISTS_TOO_SMALL) || (Z.land fl 7 =? EXISTS_TOO_LARGE)); [|apply Local_ret].
  apply Local_bind; [apply Local_Int64C|intros pv]. apply Local_ret.
Qed.
Lemma Local_SettingsBody v : LocalDec (decodeSettings_body v).
Proof.
  unfold decodeSettings_body.
  apply Local_bind; [apply Local_Int32C|intros a1].
  apply Local_bind; [apply Local_Int32C|intros a2].
  apply Local_bind; [apply Local_String|intros a3].
  destruct (SETTINGS_FLAG_VERSION <=? v); [|apply Local_ret].
  apply Local_bind; [apply Local_Byte|intros fl]. apply Local_ret.
Qed.
