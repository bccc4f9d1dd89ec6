(** Numbers, truth values and port lists are read exactly; so are requests. *)
From Coq Require Import Lia String.
From Verif Require Import Spec.UriSpec Spec.UriTextSpec Proofs.UriFacts.
Open Scope Z_scope.

(** ** Spaces *)
Lemma is_space_iff c : is_space c = true <-> space c.
Proof. unfold is_space, space. lia. Qed.
Lemma is_digit_iff c : is_digit c = true <-> digit c.
Proof. unfold is_digit, digit. lia. Qed.
Lemma digit_not_space c : digit c -> is_space c = false.
Proof. unfold digit, is_space. lia. Qed.
Lemma drop_split s : exists pre, s = pre ++ drop_space s /\ Forall space pre
  /\ match drop_space s with c :: _ => is_space c = false | [] => True end.
Proof.
  induction s as [|c s (pre & E & F & H)]; [exists []; repeat split; constructor|]. cbn.
  destruct (is_space c) eqn:S.
  - exists (c :: pre). split; [cbn; now rewrite <- E|]. split; [constructor; [now apply is_space_iff|exact F]|exact H].
  - exists []. repeat split; [constructor|exact S].
Qed.
Lemma drop_all s : Forall space s -> drop_space s = [].
Proof. induction 1 as [|c s H F IH]; [reflexivity|]. cbn. apply is_space_iff in H. now rewrite H. Qed.
Lemma drop_all_inv s : drop_space s = [] -> Forall space s.
Proof. intros H. destruct (drop_split s) as (pre & E & F & _). rewrite H, app_nil_r in E. now subst. Qed.
Lemma drop_app pre s : Forall space pre -> drop_space (pre ++ s) = drop_space s.
Proof. induction 1 as [|c p H F IH]; [reflexivity|]. cbn. apply is_space_iff in H. now rewrite H. Qed.
Lemma drop_id c s : is_space c = false -> drop_space (c :: s) = c :: s.
Proof. cbn. now intros ->. Qed.

(** ** Numbers *)
Lemma read_digits_app ds rest : forall acc, Forall digit ds -> match rest with c :: _ => is_digit c = false | [] => True end ->
  read_digits acc (ds ++ rest) = (fold_left (fun n c => n * 10 + (c - 48)) ds acc, rest).
Proof.
  induction ds as [|c ds IH]; intros acc F H.
  - cbn. destruct rest as [|c r]; [reflexivity|]. cbn. now rewrite H.
  - inversion F as [|? ? Fc Fd]; subst. cbn. apply is_digit_iff in Fc. rewrite Fc. now apply IH.
Qed.
Lemma read_digits_inv s : forall acc v rest, read_digits acc s = (v, rest) ->
  exists ds, s = ds ++ rest /\ Forall digit ds /\ v = fold_left (fun n c => n * 10 + (c - 48)) ds acc.
Proof.
  induction s as [|c s IH]; intros acc v rest E; cbn in E.
  - injection E as <- <-. exists []. repeat split; constructor.
  - destruct (is_digit c) eqn:D.
    + destruct (IH _ _ _ E) as (ds & -> & F & ->). exists (c :: ds). repeat split. constructor; [now apply is_digit_iff|exact F].
    + injection E as <- <-. exists []. repeat split; constructor.
Qed.
Lemma space_not_digit rest : Forall space rest -> match rest with c :: _ => is_digit c = false | [] => True end.
Proof. destruct 1 as [|c r H F]; [exact I|]. unfold space, is_digit in *. lia. Qed.

Lemma parse_int_iff lo hi s v : parse_int lo hi s = Some v <-> int_text s v /\ lo <= v <= hi.
Proof.
  set (fin := fun (neg : bool) t =>
    match t with
    | c :: _ =>
      if is_digit c then
        let (v, rest) := read_digits 0 t in
        let v' := if neg then - v else v in
        match drop_space rest with
        | [] => if (lo <=? v') && (v' <=? hi) then Some v' else None
        | _ => None
        end
      else None
    | [] => None
    end).
  assert (Fin : forall neg t, fin neg t = Some v <->
    (exists ds post, t = ds ++ post /\ ds <> [] /\ Forall digit ds /\ Forall space post
       /\ v = (if neg then - decimal ds else decimal ds)) /\ lo <= v <= hi).
  { intros neg t. split.
    - intros E. destruct t as [|c t]; [discriminate E|]. unfold fin in E.
      destruct (is_digit c) eqn:D; [|discriminate E].
      destruct (read_digits 0 (c :: t)) as [n rest] eqn:R.
      destruct (drop_space rest) eqn:S; [|discriminate E].
      destruct ((lo <=? (if neg then - n else n)) && ((if neg then - n else n) <=? hi)) eqn:B; [|discriminate E].
      injection E as E. apply andb_prop in B. destruct B as [B1 B2]. apply Z.leb_le in B1, B2. rewrite <- E. split; [|split; assumption].
      destruct (read_digits_inv _ _ _ _ R) as (ds & Es & F & N). exists ds, rest. split; [exact Es|]. split.
      + intros ->. cbn in Es. subst rest. cbn in S.
        apply is_digit_iff, digit_not_space in D. rewrite D in S. discriminate S.
      + split; [exact F|]. split; [now apply drop_all_inv|]. unfold decimal. now rewrite <- N.
    - intros ((ds & post & -> & N & F & P & V) & B). destruct ds as [|c ds]; [contradiction|].
      cbn [app]. unfold fin. inversion F as [|? ? Fc Fd]; subst.
      pose proof Fc as Dc. apply is_digit_iff in Dc. rewrite Dc.
      change (c :: ds ++ post) with ((c :: ds) ++ post). rewrite read_digits_app by (assumption || now apply space_not_digit).
      fold (decimal (c :: ds)). rewrite (drop_all post P). 
      assert (L1 : (lo <=? (if neg then - decimal (c :: ds) else decimal (c :: ds))) = true) by now apply Z.leb_le.
      assert (L2 : ((if neg then - decimal (c :: ds) else decimal (c :: ds)) <=? hi) = true) by now apply Z.leb_le.
      now rewrite L1, L2. }
  unfold parse_int. fold fin. destruct (drop_split s) as (pre & Es & Fp & Hs).
  split.
  - intros E. destruct (drop_space s) as [|c r] eqn:D; [discriminate E|].
    destruct (c =? 45) eqn:C1; [|destruct (c =? 43) eqn:C2].
    + apply Z.eqb_eq in C1. subst c. change (fin true r = Some v) in E. apply Fin in E. destruct E as ((ds & post & -> & N & F & P & V) & B).
      split; [|exact B]. exists pre, [45], ds, post. repeat split; try assumption. left. split; [reflexivity|exact V].
    + apply Z.eqb_eq in C2. subst c. change (fin false r = Some v) in E. apply Fin in E. destruct E as ((ds & post & -> & N & F & P & V) & B).
      split; [|exact B]. exists pre, [43], ds, post. repeat split; try assumption. right. split; [now right|exact V].
    + change (fin false (c :: r) = Some v) in E. apply Fin in E. destruct E as ((ds & post & Ed & N & F & P & V) & B).
      split; [|exact B]. exists pre, [], ds, post. cbn [app]. rewrite <- Ed. repeat split; try assumption. right. split; [now left|exact V].
  - intros ((pre' & sign & ds & post & E & F1 & F2 & N & F & V) & B). subst s. clear Es Fp Hs.
    rewrite drop_app by exact F1.
    destruct V as [[-> V]|[[->| ->] V]].
    + cbn [app]. rewrite drop_id by reflexivity. change (fin true (ds ++ post) = Some v). apply Fin. split; [|exact B].
      exists ds, post. repeat split; assumption.
    + destruct ds as [|c ds]; [contradiction|]. inversion F as [|? ? Fc Fd]; subst.
      cbn [app]. rewrite drop_id by now apply digit_not_space.
      assert (C1 : (c =? 45) = false) by (unfold digit in Fc; lia). assert (C2 : (c =? 43) = false) by (unfold digit in Fc; lia).
      rewrite C1, C2. change (fin false ((c :: ds) ++ post) = Some (decimal (c :: ds))). apply Fin. split; [|exact B]. exists (c :: ds), post. repeat split; assumption.
    + cbn [app]. rewrite drop_id by reflexivity. change (fin false (ds ++ post) = Some v). apply Fin. split; [|exact B].
      exists ds, post. repeat split; assumption.
Qed.
Lemma parse_i32_iff s v : parse_i32 s = Some v <-> int32_text s v.
Proof. apply parse_int_iff. Qed.
Lemma parse_i64_iff s v : parse_i64 s = Some v <-> int64_text s v.
Proof. apply parse_int_iff. Qed.

(** ** Truth values *)
Lemma bool_digits_inv s : forall acc b rest, read_bool_digits acc s = Some (b, rest) ->
  match rest with c :: _ => is_digit c = false | [] => True end /\
  ((acc = true /\ b = true /\ rest = s) \/
   (acc = false /\ exists zs, Forall (eq 48) zs /\ s = zs ++ (if b then [49] else []) ++ rest)).
Proof.
  induction s as [|c s IH]; intros acc b rest E; cbn in E.
  - injection E as <- <-. split; [exact I|]. destruct acc; [left; auto|right]. split; [reflexivity|]. exists []. split; [constructor|reflexivity].
  - destruct (is_digit c) eqn:D.
    + destruct acc; cbn [orb] in E; [discriminate E|].
      destruct (c =? 48) eqn:C0; [apply Z.eqb_eq in C0; subst c|].
      * cbn in E. destruct (IH _ _ _ E) as (R & [(X & _)|(_ & zs & F & ->)]); [discriminate X|]. split; [exact R|right].
        split; [reflexivity|]. exists (48 :: zs). split; [now constructor|reflexivity].
      * destruct (c =? 49) eqn:C1; [apply Z.eqb_eq in C1; subst c|discriminate E].
        cbn in E. destruct (IH _ _ _ E) as (R & [(_ & -> & ->)|(X & _)]); [|discriminate X]. split; [exact R|right].
        split; [reflexivity|]. exists []. split; [constructor|reflexivity].
    + injection E as <- <-. split; [exact D|]. destruct acc; [left; auto|right]. split; [reflexivity|]. exists []. split; [constructor|reflexivity].
Qed.
Lemma bool_digits_ok zs (b : bool) rest : Forall (eq 48) zs -> match rest with c :: _ => is_digit c = false | [] => True end ->
  read_bool_digits false (zs ++ (if b then [49] else []) ++ rest) = Some (b, rest).
Proof.
  intros F R. assert (T : forall acc, read_bool_digits acc rest = Some (acc, rest)).
  { intros acc. destruct rest as [|c r]; [reflexivity|]. cbn. now rewrite R. }
  induction F as [|z zs <- F IH]; cbn; [|exact IH]. destruct b; cbn; apply T.
Qed.

(** One word of the list. *)
Definition word_at (t w : list Z) : bool :=
  str_eqb (map lower (firstn (List.length w) t)) w && match drop_space (skipn (List.length w) t) with [] => true | _ => false end.
Lemma str_eqb_iff a b : str_eqb a b = true <-> a = b.
Proof.
  revert b; induction a as [|x a IH]; intros [|y b]; cbn; split; intros H; try discriminate H; try reflexivity.
  - apply andb_prop in H. destruct H as [H1 H2]. apply Z.eqb_eq in H1. apply IH in H2. now subst.
  - injection H as -> ->. rewrite Z.eqb_refl. cbn. now apply IH.
Qed.
Lemma word_at_iff t w : word_at t w = true <-> exists v post, t = v ++ post /\ map lower v = w /\ Forall space post.
Proof.
  unfold word_at. split.
  - intros H. apply andb_prop in H. destruct H as [H1 H2]. apply str_eqb_iff in H1.
    exists (firstn (List.length w) t), (skipn (List.length w) t). split; [symmetry; apply firstn_skipn|]. split; [exact H1|].
    apply drop_all_inv. destruct (drop_space (skipn (List.length w) t)); [reflexivity|discriminate H2].
  - intros (v & post & -> & <- & F). rewrite map_length, firstn_app, Nat.sub_diag, firstn_all, firstn_O, app_nil_r.
    rewrite skipn_app, Nat.sub_diag, skipn_all. cbn [app skipn]. rewrite (drop_all post F).
    assert (R : str_eqb (map lower v) (map lower v) = true) by now apply str_eqb_iff. now rewrite R.
Qed.

Definition bool_chain (t : list Z) (ws : list (list Z * bool)) (r : option bool) : option bool :=
  fold_right (fun wb r => match r with None => if word_at t (fst wb) then Some (snd wb) else None | Some _ => r end) r ws.
Definition all_words : list (list Z * bool) :=
  [(bytes_of "yes", true); (bytes_of "y", true); (bytes_of "true", true); (bytes_of "t", true); (bytes_of "on", true);
   (bytes_of "no", false); (bytes_of "n", false); (bytes_of "false", false); (bytes_of "f", false); (bytes_of "off", false)].
Lemma parse_bool_chain s : parse_bool s =
  match drop_space s with
  | c :: _ => if is_digit c then
      match read_bool_digits false (drop_space s) with
      | Some (b, rest) => match drop_space rest with [] => Some b | _ => None end
      | None => None
      end
    else bool_chain (drop_space s) all_words None
  | [] => None
  end.
Proof.
  unfold parse_bool. cbv zeta. destruct (drop_space s) as [|c t]; [reflexivity|]. destruct (is_digit c); [reflexivity|].
  unfold bool_chain, all_words. cbn [fold_right fst snd]. unfold word_at.
  assert (W : forall w (b : bool), 
    (if str_eqb (map lower (firstn (List.length w) (c :: t))) w
     then match drop_space (skipn (List.length w) (c :: t)) with [] => Some b | _ => None end else None)
    = (if str_eqb (map lower (firstn (List.length w) (c :: t))) w
          && match drop_space (skipn (List.length w) (c :: t)) with [] => true | _ => false end then Some b else None)).
  { intros w b. destruct (str_eqb _ w); [|reflexivity]. cbn [andb]. destruct (drop_space (skipn _ _)); reflexivity. }
  rewrite !W. reflexivity.
Qed.
Lemma chain_cons t w b ws : bool_chain t ((w, b) :: ws) None =
  match bool_chain t ws None with None => if word_at t w then Some b else None | Some x => Some x end.
Proof. unfold bool_chain at 1. cbn [fold_right]. fold (bool_chain t ws None). cbn [fst snd]. destruct (bool_chain t ws None); reflexivity. Qed.
Lemma chain_some t ws b : bool_chain t ws None = Some b -> exists w, In (w, b) ws /\ word_at t w = true.
Proof.
  induction ws as [|[w b'] ws IH]; intros E; [discriminate E|]. rewrite chain_cons in E.
  destruct (bool_chain t ws None) as [x|] eqn:C.
  - injection E as ->. destruct (IH eq_refl) as (w' & H & W). exists w'. split; [now right|exact W].
  - destruct (word_at t w) eqn:W; [|discriminate E]. injection E as <-. exists w. split; [now left|exact W].
Qed.
Lemma chain_none t ws : bool_chain t ws None = None -> forall w b, In (w, b) ws -> word_at t w = false.
Proof.
  induction ws as [|[w' b'] ws IH]; intros E w b H; [destruct H|]. rewrite chain_cons in E.
  destruct (bool_chain t ws None) as [x|] eqn:C; [discriminate E|].
  destruct (word_at t w') eqn:W; [discriminate E|].
  destruct H as [H|H]; [injection H as <- <-; exact W|exact (IH eq_refl w b H)].
Qed.
(** Two different words do not fit the same text. *)
Lemma lower_space c : space c -> lower c = c.
Proof. unfold space, lower. intros H. destruct ((65 <=? c) && (c <=? 90)) eqn:E; [lia|reflexivity]. Qed.
Lemma word_unique t w1 w2 : Forall (fun c => ~ space c) w1 -> Forall (fun c => ~ space c) w2 ->
  word_at t w1 = true -> word_at t w2 = true -> w1 = w2.
Proof.
  intros N1 N2 H1 H2. apply word_at_iff in H1, H2.
  destruct H1 as (v1 & p1 & -> & E1 & F1), H2 as (v2 & p2 & E & E2 & F2).
  assert (A : forall v1 p1 v2 p2 w1 w2, v1 ++ p1 = v2 ++ p2 -> map lower v1 = w1 -> map lower v2 = w2 ->
    Forall (fun c => ~ space c) w1 -> Forall (fun c => ~ space c) w2 -> Forall space p1 -> Forall space p2 -> w1 = w2).
  { clear. induction v1 as [|c v1 IH]; intros p1 v2 p2 w1 w2 E E1 E2 N1 N2 F1 F2.
    - destruct v2 as [|d v2]; [now subst|]. exfalso. cbn in E. subst p1 w2. inversion F1; subst.
      cbn in N2. inversion N2 as [|? ? X _]; subst. apply X. rewrite lower_space; assumption.
    - destruct v2 as [|d v2].
      + exfalso. cbn in E. subst p2 w1. inversion F2; subst. cbn in N1. inversion N1 as [|? ? X _]; subst. apply X. rewrite lower_space; assumption.
      + cbn in E. injection E as -> E. subst w1 w2. cbn in *. inversion N1; inversion N2; subst. f_equal.
        exact (IH _ _ _ _ _ E eq_refl eq_refl ltac:(assumption) ltac:(assumption) F1 F2). }
  exact (A _ _ _ _ _ _ E E1 E2 N1 N2 F1 F2).
Qed.
Lemma words_table w b : In (w, b) all_words <-> In w (truth_words b).
Proof.
  unfold all_words, truth_words. destruct b; cbn; split; intuition (try (injection H as H H'; try discriminate H'; subst; tauto); try (left; congruence); auto);
    repeat match goal with H : _ = (_, _) |- _ => injection H as ? ?; try discriminate; subst end; tauto.
Qed.
Lemma truth_words_letters b w : In w (truth_words b) -> w <> [] /\ Forall (fun c => 97 <= c <= 122) w.
Proof.
  assert (A : forallb (fun w => negb (match w with [] => true | _ => false end) && forallb (fun c => (97 <=? c) && (c <=? 122)) w)
    (truth_words true ++ truth_words false) = true) by reflexivity.
  intros H. rewrite forallb_forall in A. assert (I : In w (truth_words true ++ truth_words false)) by (apply in_or_app; destruct b; auto).
  specialize (A w I). apply andb_prop in A. destruct A as [A1 A2]. split; [intros ->; discriminate A1|].
  rewrite forallb_forall in A2. apply Forall_forall. intros c Hc. specialize (A2 c Hc). lia.
Qed.
Lemma truth_words_once w b b' : In w (truth_words b) -> In w (truth_words b') -> b = b'.
Proof.
  assert (A : forall w1 w2, In w1 (truth_words true) -> In w2 (truth_words false) -> w1 <> w2).
  { intros w1 w2 H1 H2 ->. cbn in H1, H2. repeat (destruct H1 as [<-|H1]; [repeat (destruct H2 as [H2|H2]; [discriminate H2|]); exact H2|]). exact H1. }
  destruct b, b'; intros H1 H2; try reflexivity; [destruct (A w w H1 H2 eq_refl)|destruct (A w w H2 H1 eq_refl)].
Qed.
Lemma lower_letter c : 97 <= lower c <= 122 -> is_space c = false /\ is_digit c = false.
Proof. unfold lower, is_space, is_digit. destruct ((65 <=? c) && (c <=? 90)) eqn:E; lia. Qed.

Lemma parse_bool_iff s b : parse_bool s = Some b <-> bool_text s b.
Proof.
  rewrite parse_bool_chain. split.
  - destruct (drop_split s) as (pre & Es & Fp & _). intros E.
    destruct (drop_space s) as [|c t]; [discriminate E|]. destruct (is_digit c) eqn:D.
    + destruct (read_bool_digits false (c :: t)) as [[b' rest]|] eqn:R; [|discriminate E].
      destruct (drop_space rest) eqn:S; [|discriminate E]. injection E as ->.
      destruct (bool_digits_inv _ _ _ _ R) as (N & [(X & _)|(_ & zs & F & Et)]); [discriminate X|].
      exists pre, (zs ++ if b then [49] else []), rest. split; [rewrite Es, Et, <- (app_assoc zs); reflexivity|].
      split; [exact Fp|]. split; [now apply drop_all_inv|]. right. exists zs. split; [exact F|].
      destruct b; [reflexivity|]. split; [apply app_nil_r|]. intros ->. cbn in Et. subst rest. rewrite D in N. discriminate N.
    + destruct (chain_some _ _ _ E) as (w & I & W). apply words_table in I. apply word_at_iff in W.
      destruct W as (v & post & Et & Ew & F). exists pre, v, post. rewrite Es, Et. repeat split; try assumption.
      left. now rewrite Ew.
  - intros (pre & w & post & -> & F1 & F2 & H). rewrite drop_app by exact F1. destruct H as [I|(zs & F & H)].
    + destruct (truth_words_letters _ _ I) as [Ne L]. destruct w as [|c w]; [now destruct Ne|].
      assert (Lc : 97 <= lower c <= 122) by (cbn in L; now inversion L). destruct (lower_letter c Lc) as [Sc Dc].
      cbn [app]. rewrite drop_id by exact Sc. rewrite Dc.
      assert (W : word_at (c :: w ++ post) (map lower (c :: w)) = true) by (apply word_at_iff; exists (c :: w), post; auto).
      destruct (bool_chain (c :: w ++ post) all_words None) as [b'|] eqn:C.
      * destruct (chain_some _ _ _ C) as (w' & I' & W'). apply words_table in I'. f_equal.
        assert (A : forall b w, In w (truth_words b) -> Forall (fun c => ~ space c) w).
        { intros b0 w0 I0. destruct (truth_words_letters _ _ I0) as [_ L0]. eapply Forall_impl; [|exact L0].
          intros a Ha [Hs|Hs]; cbn in Ha; lia. }
        pose proof (word_unique _ _ _ (A _ _ I) (A _ _ I') W W') as Eq. rewrite <- Eq in I'.
        exact (truth_words_once _ _ _ I' I).
      * pose proof (chain_none _ _ C _ _ (proj2 (words_table _ _) I)) as X. rewrite W in X. discriminate X.
    + assert (Ew : w ++ post = zs ++ (if b then [49] else []) ++ post)
        by (destruct b; [rewrite H, <- app_assoc; reflexivity|destruct H as [-> _]; reflexivity]).
      assert (Hd : exists c t, w ++ post = c :: t /\ is_digit c = true /\ is_space c = false).
      { rewrite Ew. destruct zs as [|z zs].
        - destruct b; [|destruct H as [_ H]; now destruct H]. exists 49, post. repeat split.
        - inversion F; subst. exists 48, (zs ++ (if b then [49] else []) ++ post). repeat split. }
      destruct Hd as (c & t & Et & Dc & Sc). rewrite Et, drop_id, Dc by exact Sc. rewrite <- Et, Ew.
      rewrite bool_digits_ok by (assumption || now apply space_not_digit). now rewrite (drop_all post F2).
Qed.

(** ** Ports *)
Lemma ports_iff s : forall fuel err l, (List.length s < fuel)%nat ->
  (parse_ports fuel err s = (OK, l) <-> err = OK /\ ports_text s l).
Proof.
  assert (P : forall err p e h, (match p with [] => (err, []) | _ :: _ => match parse_i32 p with Some v => (err, [v]) | None => (URI_PARSE_ERROR, []) end end) = (e, h)
     -> (e = OK <-> err = OK /\ port_piece p h) /\ (forall h', err = OK -> port_piece p h' -> h' = h)).
  { intros err p e h E. destruct p as [|c p].
    - injection E as <- <-. split; [split; [intros ->; split; [reflexivity|constructor]|now intros [-> _]]|].
      intros h' _ H. now inversion H.
    - destruct (parse_i32 (c :: p)) as [v|] eqn:V; injection E as <- <-.
      + split; [split; [intros ->; split; [reflexivity|]|now intros [-> _]]|].
        * constructor; [discriminate|now apply parse_i32_iff].
        * intros h' _ H. inversion H as [|? v' _ T]; subst. apply parse_i32_iff in T. rewrite V in T. injection T as ->. reflexivity.
      + split; [split; [intros X; discriminate X|]|].
        * intros [_ H]. inversion H.
        * intros h' _ H. inversion H as [|? v' _ T]; subst. apply parse_i32_iff in T. rewrite V in T. discriminate T. }
  intros fuel. revert s. induction fuel as [|f IH]; intros s err l L; [lia|].
  assert (Sp : (~ In 44 s /\ split_step 44 s = (s, [])) \/ exists a r, s = a ++ 44 :: r /\ ~ In 44 a /\ split_step 44 s = (a, r)).
  { destruct (in_dec Z.eq_dec 44 s) as [I|N]; [right|left; split; [exact N|now apply split_step_none]].
    clear - I. assert (X : exists a r, s = a ++ 44 :: r /\ ~ In 44 a).
    { induction s as [|c s IH]; [destruct I|]. destruct (Z.eq_dec c 44) as [->|Ne]; [exists [], s; split; [reflexivity|intros []]|].
      destruct I as [->|I]; [contradiction|]. destruct (IH I) as (a & r & -> & N). exists (c :: a), r. split; [reflexivity|].
      intros [->|H]; [now apply Ne|contradiction]. }
    destruct X as (a & r & -> & N). exists a, r. split; [reflexivity|]. split; [exact N|now apply split_step_at]. }
  cbn [parse_ports]. destruct Sp as [[N ->]|(a & r & -> & N & ->)].
  - destruct (match s with [] => (err, []) | _ :: _ => _ end) as [e h] eqn:E. destruct (P _ _ _ _ E) as [P1 P2]. split.
    + intros X. injection X as -> ->. destruct (proj1 P1 eq_refl) as [-> H]. split; [reflexivity|]. now constructor.
    + intros [-> T]. inversion T as [p l' N' H|p l' N' H Eq|p l' r' l'' N' H Ne T' Eq]; subst.
      * rewrite (P2 _ eq_refl H). f_equal. apply P1. split; [reflexivity|]. now rewrite <- (P2 _ eq_refl H).
      * destruct N. apply in_or_app. right. now left.
      * destruct N. apply in_or_app. right. now left.
  - destruct (match a with [] => (err, []) | _ :: _ => _ end) as [e h] eqn:E. destruct (P _ _ _ _ E) as [P1 P2].
    assert (U : forall p q, p ++ 44 :: q = a ++ 44 :: r -> ~ In 44 p -> p = a /\ q = r).
    { clear - N. intros p. revert a N. induction p as [|c p IH]; intros a N q Eq Np.
      - destruct a as [|d a]; [injection Eq as ->; auto|]. injection Eq as <- _. destruct N. now left.
      - destruct a as [|d a]; [injection Eq as -> _; destruct Np; now left|]. injection Eq as -> Eq.
        destruct (IH a (fun H => N (or_intror H)) q Eq (fun H => Np (or_intror H))) as [-> ->]. auto. }
    rewrite app_length in L. cbn in L. destruct r as [|c r].
    + split.
      * intros X. injection X as -> ->. destruct (proj1 P1 eq_refl) as [-> H]. split; [reflexivity|]. now constructor.
      * intros [-> T]. inversion T as [p l' N' H|p l' N' H Eq|p l' r' l'' N' H Ne T' Eq]; subst.
        -- destruct N'. apply in_or_app. right. now left.
        -- destruct (U p [] Eq N') as [-> _]. rewrite (P2 _ eq_refl H). f_equal. apply P1. split; [reflexivity|]. now rewrite <- (P2 _ eq_refl H).
        -- destruct (U p r' Eq N') as [_ ->]. now destruct Ne.
    + destruct (parse_ports f e (c :: r)) as [e2 more] eqn:R. split.
      * intros X. injection X as -> <-. apply IH in R; [|cbn in *; lia]. destruct R as [-> T].
        destruct (proj1 P1 eq_refl) as [-> H]. split; [reflexivity|]. apply pt_more; try assumption. discriminate.
      * intros [-> T]. inversion T as [p l' N' H|p l' N' H Eq|p l' r' l'' N' H Ne T' Eq]; subst.
        -- destruct N'. apply in_or_app. right. now left.
        -- destruct (U p [] Eq N') as [_ X]. discriminate X.
        -- destruct (U p r' Eq N') as [-> ->]. assert (e = OK) as -> by (apply P1; split; [reflexivity|]; now rewrite <- (P2 _ eq_refl H)).
           pose proof (proj2 (IH (c :: r) OK l'' ltac:(cbn in *; lia)) (conj eq_refl T')) as R'. rewrite R in R'. injection R' as -> ->.
           now rewrite (P2 _ eq_refl H).
Qed.

(** ** The whole request *)
Lemma opt_field {A} (parse : list Z -> option A) (P : list Z -> A -> Prop) s d err v :
  (forall s v, parse s = Some v <-> P s v) ->
  (opt_param parse s d err = (OK, v) <-> err = OK /\ field P s d v).
Proof.
  intros H. unfold opt_param, field. destruct s as [|c s].
  - split; [intros E; injection E as -> <-; auto|]. intros [-> [[_ ->]|[X _]]]; [reflexivity|now destruct X].
  - destruct (parse (c :: s)) as [x|] eqn:E.
    + split; [intros X; injection X as -> ->; split; [reflexivity|right; split; [discriminate|now apply H]]|].
      intros [-> [[X _]|[_ X]]]; [discriminate X|]. apply H in X. rewrite E in X. injection X as ->. reflexivity.
    + split; [intros X; discriminate X|]. intros [_ [[X _]|[_ X]]]; [discriminate X|]. apply H in X. rewrite E in X. discriminate X.
Qed.
Lemma gen_consecutive start num l : (zlen l = Z.max 0 num /\ consecutive start l) <-> l = genPortsVector start num.
Proof.
  assert (G : forall n start, consecutive start (genPortsVector start (Z.of_nat n))).
  { induction n as [|n IH]; intros st; [exact I|]. unfold genPortsVector. rewrite Nat2Z.id. cbn [seq map consecutive].
    split; [lia|]. rewrite <- seq_shift, map_map. specialize (IH (st + 1)). unfold genPortsVector in IH. rewrite Nat2Z.id in IH.
    erewrite map_ext; [exact IH|]. intros i. cbn beta. lia. }
  assert (M : genPortsVector start num = genPortsVector start (Z.max 0 num)).
  { unfold genPortsVector. now replace (Z.to_nat num) with (Z.to_nat (Z.max 0 num)) by lia. }
  split.
  - intros [L C]. rewrite (consecutive_gen _ _ C), L. now rewrite <- M.
  - intros ->. rewrite M. rewrite <- (Z2Nat.id (Z.max 0 num)) by lia. split; [|apply G].
    unfold genPortsVector, zlen. rewrite map_length, seq_length. lia.
Qed.
Lemma unser_code s code e : unserialize s = Ret (code, e) -> code <> OK -> code = ERROR.
Proof.
  unfold unserialize. destruct (unser_loop s IN_TYPE 0 0 []) as [st ty d|d|]; intros E N; try discriminate E; try (now injection E as <- _).
  destruct st; try (now injection E as <- _). destruct ((ty <=? ENC_NONE) || (NUM_ENC_TYPES <=? ty)); [now injection E as <- _|].
  injection E as <- _. now destruct N.
Qed.
Lemma enc_field s e0 enc :
  (match s with
   | [] => Ret (e0, enc_none)
   | _ => obind (unserialize s) (fun '(code, e) => Ret (if code =? OK then e0 else getMoreInterestingError code e0, e))
   end = Ret (OK, enc)) <-> e0 = OK /\ field (fun s e => key_text s (ep_type e) (ep_data e)) s enc_none enc.
Proof.
  unfold field. destruct s as [|c s].
  - split; [intros E; injection E as -> <-; auto|]. intros [-> [[_ ->]|[X _]]]; [reflexivity|now destruct X].
  - split.
    + intros E. destruct (unserialize (c :: s)) as [[code e]| |] eqn:U; try discriminate E. cbn [obind] in E.
      destruct (Z.eqb_spec code OK) as [->|N].
      * injection E as -> ->. split; [reflexivity|]. right. split; [discriminate|now apply unserialize_inv].
      * rewrite (unser_code _ _ _ U N) in E. injection E as E _. unfold getMoreInterestingError, ERROR, OK in E. lia.
    + intros [-> [[X _]|[_ K]]]; [discriminate X|]. rewrite (unserialize_ok _ _ _ K). cbn [obind]. destruct enc. reflexivity.
Qed.
Lemma int32_nonempty s v : int32_text s v -> s <> [].
Proof. intros [(pre & sg & ds & post & E & _ & _ & N & _) _] ->. symmetry in E. apply app_eq_nil in E. destruct E as [_ E].
  apply app_eq_nil in E. destruct E as [_ E]. apply app_eq_nil in E. now destruct E as [-> _]. Qed.

Lemma request_iff url r : (parseRequest url = Ret r /\ r_error r = OK) <-> exists u, process url = (OK, u) /\ means u r.
Proof.
  unfold parseRequest. destruct (process url) as [e0 u] eqn:P. cbv zeta. 
  set (get := fun k => map_get k (u_params u)).
  change (map_get ENCRYPTION_PARAM (u_params u)) with (get ENCRYPTION_PARAM).
  change (map_get TLS_PARAM (u_params u)) with (get TLS_PARAM).
  split.
  - intros [E Ok].
    destruct (match get ENCRYPTION_PARAM with [] => Ret (e0, enc_none) | _ => _ end) as [[e1 enc]| |] eqn:E1; try discriminate E.
    cbn [obind] in E.
    destruct (opt_param parse_bool (get TLS_PARAM) false e1) as [e2 tls] eqn:E2.
    destruct (opt_param parse_bool (map_get DOWNLOAD_RESUMPTION_PARAM (u_params u)) false e2) as [e3 resume] eqn:E3.
    destruct (opt_param parse_i64 (map_get RECEIVER_PROTOCOL_VERSION_PARAM (u_params u)) protocol_version e3) as [e4 version] eqn:E4.
    destruct (opt_param parse_i64 (map_get IV_CHANGE_INTERVAL_PARAM (u_params u)) 0 e4) as [e5 iv] eqn:E5.
    destruct (parse_ports _ e5 _) as [e6 ports] eqn:E6.
    set (mk := fun e p => Ret {| r_transferId := get TRANSFER_ID_PARAM; r_enc := enc; r_version := version;
     r_ports := p; r_host := u_host u; r_destId := get DEST_IDENTIFIER_PARAM;
     r_ns := get NAMESPACE_PARAM; r_dir := get DIRECTORY_PARAM; r_resume := resume;
     r_tls := tls; r_iv := iv; r_error := e |}).
    assert (K : exists p, mk OK p = Ret r /\ e6 = OK /\ ((ports <> [] /\ p = ports) \/ (ports = [] /\ exists start num,
        ((0 < u_port u /\ start = u_port u) \/ (u_port u <= 0 /\ int32_text (get START_PORT_PARAM) start))
        /\ int32_text (get NUM_PORTS_PARAM) num /\ start + num - 1 < 2 ^ 31 /\ p = genPortsVector start num))).
    { destruct ports as [|q ports].
      - destruct (if u_port u <=? 0 then _ else _) as [e7 start] eqn:E7.
        destruct (match map_get NUM_PORTS_PARAM (u_params u) with [] => _ | _ => _ end) as [e8 num] eqn:E8.
        destruct (Z.eqb_spec e8 OK) as [->|N8]; [|injection E as <-; now destruct N8].
        destruct (Z.leb_spec (2 ^ 31) (start + num - 1)) as [|Lt]; [discriminate E|].
        assert (X8 : e7 = OK /\ int32_text (get NUM_PORTS_PARAM) num).
        { fold (get NUM_PORTS_PARAM) in E8. destruct (get NUM_PORTS_PARAM) as [|c0 s0]; [discriminate E8|].
          destruct (parse_i32 (c0 :: s0)) as [v|] eqn:V; [|discriminate E8]. injection E8 as -> ->. split; [reflexivity|now apply parse_i32_iff]. }
        destruct X8 as [-> X8].
        assert (X7 : e6 = OK /\ ((0 < u_port u /\ start = u_port u) \/ (u_port u <= 0 /\ int32_text (get START_PORT_PARAM) start))).
        { destruct (Z.leb_spec (u_port u) 0) as [L|L].
          - fold (get START_PORT_PARAM) in E7. destruct (get START_PORT_PARAM) as [|c0 s0]; [discriminate E7|].
            destruct (parse_i32 (c0 :: s0)) as [v|] eqn:V; [|discriminate E7]. injection E7 as -> ->. split; [reflexivity|right]. split; [exact L|now apply parse_i32_iff].
          - injection E7 as -> <-. auto. }
        destruct X7 as [-> X7]. eexists. split; [exact E|]. split; [reflexivity|]. right. split; [reflexivity|]. exists start, num. auto.
      - assert (e6 = OK) as -> by (injection E as <-; exact Ok). eexists. split; [exact E|]. split; [reflexivity|]. left. split; [discriminate|reflexivity]. }
    clear E Ok. destruct K as (p & E & -> & Kp). unfold mk in E. injection E as <-.
    apply ports_iff in E6; [|lia]. destruct E6 as [-> E6].
    apply (opt_field _ _ _ _ _ _ parse_i64_iff) in E5. destruct E5 as [-> E5].
    apply (opt_field _ _ _ _ _ _ parse_i64_iff) in E4. destruct E4 as [-> E4].
    apply (opt_field _ _ _ _ _ _ parse_bool_iff) in E3. destruct E3 as [-> E3].
    apply (opt_field _ _ _ _ _ _ parse_bool_iff) in E2. destruct E2 as [-> E2].
    apply enc_field in E1. destruct E1 as [-> E1].
    exists u. split; [reflexivity|]. unfold means. fold get. cbn. repeat (split; [assumption || reflexivity|]). split; [|reflexivity].
    exists ports. split; [exact E6|]. destruct Kp as [Kp|(Kl & start & num & K1 & K2 & K3 & K4)]; [left; exact Kp|right].
    split; [exact Kl|]. exists start, num. split; [exact K1|]. split; [exact K2|]. split; [exact K3|]. now apply gen_consecutive.
  - intros (u' & Eu & M). injection Eu as -> <-. unfold means in M. cbv zeta in M. fold get in M.
    destruct M as (M1 & M2 & M3 & M4 & M5 & M6 & M7 & M8 & M9 & M10 & (l & Ml & M11) & M12). split; [|exact M12].
    rewrite (proj2 (enc_field (get ENCRYPTION_PARAM) OK (r_enc r)) (conj eq_refl M6)). cbn [obind].
    rewrite (proj2 (opt_field parse_bool bool_text (get TLS_PARAM) _ _ _ parse_bool_iff) (conj eq_refl M7)).
    rewrite (proj2 (opt_field parse_bool bool_text _ _ _ _ parse_bool_iff) (conj eq_refl M8)).
    rewrite (proj2 (opt_field parse_i64 int64_text _ _ _ _ parse_i64_iff) (conj eq_refl M9)).
    rewrite (proj2 (opt_field parse_i64 int64_text _ _ _ _ parse_i64_iff) (conj eq_refl M10)).
    change (map_get PORTS_PARAM (u_params u)) with (get PORTS_PARAM).
    rewrite (proj2 (ports_iff (get PORTS_PARAM) (S (List.length (get PORTS_PARAM))) OK l ltac:(lia)) (conj eq_refl Ml)).
    destruct r as [rt re rv rp rh rd rn rdir rres rtls riv rerr].
    cbn [r_transferId r_enc r_version r_ports r_host r_destId r_ns r_dir r_resume r_tls r_iv r_error] in *. subst rt rh rd rn rdir rerr.
    destruct M11 as [[Ne ->]|(-> & start & num & K1 & K2 & K3 & K4)].
    + destruct l as [|q l]; [now destruct Ne|]. reflexivity.
    + apply gen_consecutive in K4. subst rp.
      assert (S7 : (if u_port u <=? 0
         then match get START_PORT_PARAM with [] => (INVALID_REQUEST, u_port u)
              | _ :: _ => match parse_i32 (get START_PORT_PARAM) with Some v => (OK, v) | None => (URI_PARSE_ERROR, u_port u) end end
         else (OK, u_port u)) = (OK, start)).
      { destruct K1 as [[L ->]|[L T]]; [destruct (Z.leb_spec (u_port u) 0); [lia|reflexivity]|].
        destruct (Z.leb_spec (u_port u) 0); [|lia]. pose proof (int32_nonempty _ _ T) as Ne. apply parse_i32_iff in T. rewrite T.
        destruct (get START_PORT_PARAM); [now destruct Ne|reflexivity]. }
      fold (get START_PORT_PARAM). rewrite S7.
      assert (S8 : (match get NUM_PORTS_PARAM with [] => (INVALID_REQUEST, 0)
          | _ :: _ => match parse_i32 (get NUM_PORTS_PARAM) with Some v => (OK, v) | None => (URI_PARSE_ERROR, 0) end end) = (OK, num)).
      { pose proof (int32_nonempty _ _ K2) as Ne. apply parse_i32_iff in K2. rewrite K2. destruct (get NUM_PORTS_PARAM); [now destruct Ne|reflexivity]. }
      fold (get NUM_PORTS_PARAM). rewrite S8. cbn [Z.eqb OK]. 
      destruct (Z.leb_spec (2 ^ 31) (start + num - 1)); [lia|]. reflexivity.
Qed.

(** A request to look at. *)
Definition exreq (host : string) (ports : list Z) (enc : encparams) : request :=
  {| r_transferId := [0; 38; 61; 37; 200]; r_enc := enc; r_version := -3; r_ports := ports;
     r_host := bytes_of host; r_destId := bytes_of "a b"; r_ns := []; r_dir := bytes_of "/tmp";
     r_resume := true; r_tls := true; r_iv := 4096; r_error := OK |}.

Lemma ports_exact s l : parse_ports (S (List.length s)) OK s = (OK, l) <-> ports_text s l.
Proof. rewrite (ports_iff s (S (List.length s)) OK l) by lia. tauto. Qed.
Lemma no_ports : exists url r, parseRequest url = Ret r /\ r_error r = OK /\ r_ports r = [].
Proof. exists (bytes_of "wdt://h:22?num_ports=-3"). eexists. vm_compute. repeat split. Qed.
Lemma port_range : exists url r, parseRequest url = Ret r /\ r_error r = OK /\ r_ports r = [65536; -1].
Proof. exists (bytes_of "wdt://h?ports=65536,-1"). eexists. vm_compute. repeat split. Qed.
