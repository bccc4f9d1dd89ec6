From Verif Require Import Spec.UriSpec Proofs.BytesFacts.
From Coq Require Import Lia.

(** ** Hexadecimal *)
Lemma fromHex_spec c v : 0 <= v -> (fromHex c = v <-> hex_digit c v).
Proof.
  intros Hv. unfold fromHex, hex_digit.
  destruct (Z.ltb_spec c 48), (Z.ltb_spec 57 c), (Z.ltb_spec c 97), (Z.ltb_spec 102 c), (Z.leb_spec c 57);
    cbn [orb andb]; split; intros; lia.
Qed.
Lemma fromHex_neg c : fromHex c < 0 -> forall v, ~ hex_digit c v.
Proof.
  intros H v Hd. assert (0 <= v) by (unfold hex_digit in Hd; lia).
  apply fromHex_spec in Hd; [|assumption]. lia.
Qed.
Lemma fromHex_pos c : 0 <= fromHex c -> hex_digit c (fromHex c).
Proof. intros H. apply fromHex_spec; [exact H|reflexivity]. Qed.
Lemma hex_digit_range c v : hex_digit c v -> 0 <= v < 16.
Proof. unfold hex_digit. lia. Qed.
Lemma toHex_digit v : 0 <= v < 16 -> hex_digit (toHex v) v.
Proof. intros H. unfold toHex, hex_digit. destruct (Z.leb_spec v 9); lia. Qed.
Lemma fromHex_toHex v : 0 <= v < 16 -> fromHex (toHex v) = v.
Proof. intros H. apply fromHex_spec; [lia|]. apply toHex_digit, H. Qed.

Lemma byte_split c : is_byte c -> 0 <= c / 16 < 16 /\ 0 <= c mod 16 < 16 /\ c / 16 * 16 + c mod 16 = c.
Proof.
  intros [H1 H2]. pose proof (Z.mod_pos_bound c 16 ltac:(lia)). pose proof (Z.div_mod c 16 ltac:(lia)).
  split; [split; [apply Z.div_pos; lia|apply Z.div_lt_upper_bound; lia]|lia].
Qed.

(** ** Escaping *)
Lemma plain_not_percent c : plain c = true -> c <> 37.
Proof. intros H ->. discriminate H. Qed.

Lemma unescape_escape s : bytes_ok s -> unescape (escape s) = (true, s).
Proof.
  induction s as [|c s IH]; intros H; [reflexivity|]. apply Forall_cons_iff in H. destruct H as [Hc Hs].
  specialize (IH Hs). cbn [escape]. destruct (plain c) eqn:Ep; cbn [unescape].
  - apply plain_not_percent in Ep. apply Z.eqb_neq in Ep. rewrite Ep. cbn [negb]. rewrite IH. reflexivity.
  - rewrite Z.eqb_refl. cbn [negb].
    destruct (byte_split c Hc) as (H1 & H2 & H3). rewrite !fromHex_toHex by assumption.
    assert (c / 16 <? 0 = false) as -> by (apply Z.ltb_ge; lia).
    assert (c mod 16 <? 0 = false) as -> by (apply Z.ltb_ge; lia). cbn [orb].
    rewrite IH, H3. reflexivity.
Qed.

Lemma escape_chars s : bytes_ok s -> forall c, In c (escape s) -> c = 37 \/ plain c = true.
Proof.
  induction s as [|x s IH]; intros H c Hc; [destruct Hc|]. apply Forall_cons_iff in H. destruct H as [Hx Hs].
  cbn [escape] in Hc. destruct (plain x) eqn:Ep.
  - destruct Hc as [<-|Hc]; [right; exact Ep|apply IH; assumption].
  - destruct (byte_split x Hx) as (H1 & H2 & _).
    assert (T : forall v, 0 <= v < 16 -> plain (toHex v) = true).
    { intros v Hv. pose proof (toHex_digit v Hv) as D. unfold plain, hex_digit in *.
      destruct D as [[D _]|[D _]].
      - assert ((48 <=? toHex v) && (toHex v <=? 57) = true) as -> by lia. apply Bool.orb_true_r.
      - assert ((97 <=? toHex v) && (toHex v <=? 122) = true) as -> by lia. rewrite Bool.orb_true_r. reflexivity. }
    destruct Hc as [<-|[<-|[<-|Hc]]]; [left; reflexivity| | |apply IH; assumption]; right; apply T; assumption.
Qed.

Lemma escape_no_separator s : bytes_ok s -> forall c, In c (escape s) -> ~ separator c.
Proof.
  intros H c Hc Hs. destruct (escape_chars s H c Hc) as [->|P]; unfold separator in Hs; [lia|].
  unfold plain in P. lia.
Qed.

Lemma unescape_denotes t : forall s, unescape t = (true, s) <-> denotes t s.
Proof.
  assert (G : forall n t, (length t <= n)%nat -> forall s, unescape t = (true, s) <-> denotes t s).
  { induction n as [|n IH]; intros u Hn s.
    - destruct u; [|cbn in Hn; lia]. cbn. split; [intros [= <-]; constructor|]. intros H; inversion H; reflexivity.
    - destruct u as [|c r]; [cbn; split; [intros [= <-]; constructor|intros H; inversion H; reflexivity]|].
      cbn [unescape]. destruct (Z.eqb_spec c 37) as [Hc|Hc]; cbn [negb].
      + destruct r as [|a [|b r']].
        * split; [discriminate|intros H; inversion H; contradiction].
        * split; [discriminate|intros H; inversion H; contradiction].
        * cbn [length] in Hn. specialize (IH r' ltac:(lia)).
          destruct (Z.ltb_spec (fromHex a) 0) as [Ha|Ha]; cbn [orb].
          { split; [discriminate|]. intros H. inversion H; subst; [contradiction|]. exfalso. eapply fromHex_neg; eassumption. }
          destruct (Z.ltb_spec (fromHex b) 0) as [Hb|Hb].
          { split; [discriminate|]. intros H. inversion H; subst; [contradiction|]. exfalso. eapply fromHex_neg; [exact Hb|eassumption]. }
          destruct (unescape r') as [ok o] eqn:E.
          split.
          { intros [= -> <-]. subst c. rewrite Z.mul_comm.
            apply den_hex; [apply fromHex_pos, Ha|apply fromHex_pos, Hb|]. apply IH. reflexivity. }
          { intros H. inversion H; subst; [contradiction|].
            match goal with [ Q : denotes r' _ |- _ ] => apply IH in Q; injection Q as -> -> end.
            repeat match goal with [ Q : hex_digit ?x ?v |- _ ] =>
              let R := fresh in pose proof (hex_digit_range _ _ Q) as R; apply fromHex_spec in Q; [|lia] end.
            f_equal. f_equal. lia. }
      + cbn [length] in Hn. specialize (IH r ltac:(lia)). destruct (unescape r) as [ok o] eqn:E.
        split.
        * intros [= -> <-]. constructor; [exact Hc|]. apply IH; reflexivity.
        * intros H. inversion H; subst; [|contradiction].
          match goal with [ Q : denotes r _ |- _ ] => apply IH in Q; injection Q as -> -> end. reflexivity. }
  intros s. exact (G (length t) t (le_n _) s).
Qed.

Lemma unescape_rejects t : (forall s, ~ denotes t s) -> fst (unescape t) = false.
Proof.
  intros H. destruct (unescape t) as [[|] o] eqn:E; [|reflexivity].
  apply unescape_denotes in E. exfalso. eapply H, E.
Qed.

(** ** Decimal numbers *)
Lemma read_digits_app d : Forall (fun c => is_digit c = true) d -> forall acc rest,
  match rest with [] => True | c :: _ => is_digit c = false end ->
  read_digits acc (d ++ rest) = (fst (read_digits acc d), rest).
Proof.
  induction d as [|c d IH]; intros H acc rest Hr.
  - cbn [app read_digits fst]. destruct rest as [|c r]; [reflexivity|]. cbn [read_digits]. rewrite Hr. reflexivity.
  - apply Forall_cons_iff in H. destruct H as [Hc Hd]. cbn [app read_digits]. rewrite Hc. apply IH; assumption.
Qed.

Lemma digits_of_ok fuel : forall n acc, 0 <= n < 2 ^ Z.of_nat fuel -> Forall (fun c => is_digit c = true) acc ->
  Forall (fun c => is_digit c = true) (digits_of fuel n acc) /\
  (forall a, fst (read_digits a (digits_of fuel n acc)) =
             fst (read_digits (a * 10 ^ (zlen (digits_of fuel n acc) - zlen acc) + n) acc)) /\
  (fuel <> O -> zlen acc < zlen (digits_of fuel n acc)).
Proof.
  induction fuel as [|f IH]; intros n acc Hn Ha.
  - cbn in Hn. assert (n = 0) by lia. subst n. split; [exact Ha|]. split; [|congruence].
    intros a. cbn [digits_of]. rewrite Z.sub_diag. f_equal. f_equal. change (10 ^ 0) with 1. lia.
  - cbn [digits_of]. set (d := 48 + n mod 10).
    pose proof (Z.mod_pos_bound n 10 ltac:(lia)) as M. pose proof (Z.div_mod n 10 ltac:(lia)) as D.
    assert (Hd : is_digit d = true) by (unfold is_digit, d; lia).
    assert (Z1 : zlen (d :: acc) = zlen acc + 1) by (unfold zlen; cbn [length]; lia).
    destruct (Z.ltb_spec n 10).
    + split; [constructor; assumption|]. split; [|intros _; lia].
      intros a. cbn [read_digits]. rewrite Hd. rewrite Z1. replace (zlen acc + 1 - zlen acc) with 1 by lia.
      f_equal. f_equal. unfold d. rewrite Z.mod_small by lia. lia.
    + destruct (IH (n / 10) (d :: acc)) as (I1 & I2 & I3).
      * rewrite Nat2Z.inj_succ, Z.pow_succ_r in Hn by lia. split; [apply Z.div_pos; lia|].
        apply Z.div_lt_upper_bound; [lia|]. assert (0 < 2 ^ Z.of_nat f) by (apply Z.pow_pos_nonneg; lia). lia.
      * constructor; assumption.
      * split; [exact I1|]. 
        assert (Hf : f <> O). { intros ->. cbn in Hn. lia. }
        specialize (I3 Hf). split; [|intros _; lia].
        intros a. rewrite I2. cbn [read_digits]. rewrite Hd. f_equal. f_equal.
        set (L := digits_of f (n / 10) (d :: acc)) in *. rewrite Z1 in *.
        replace (zlen L - zlen acc) with (Z.succ (zlen L - (zlen acc + 1))) by lia.
        rewrite Z.pow_succ_r by lia. unfold d. lia.
Qed.

Lemma print_nat_digits n : 0 <= n -> Forall (fun c => is_digit c = true) (print_nat n) /\
  fst (read_digits 0 (print_nat n)) = n /\ print_nat n <> [].
Proof.
  intros H. unfold print_nat.
  assert (B : 0 <= n < 2 ^ Z.of_nat (S (Z.to_nat (Z.log2 n)))).
  { split; [exact H|]. rewrite Nat2Z.inj_succ, Z2Nat.id by apply Z.log2_nonneg.
    destruct (Z.eq_dec n 0) as [->|]; [cbn; lia|]. apply Z.log2_spec; lia. }
  destruct (digits_of_ok _ n [] B (Forall_nil _)) as (A1 & A2 & A3).
  split; [exact A1|split].
  - rewrite A2. reflexivity.
  - specialize (A3 ltac:(discriminate)). intros E. rewrite E in A3. cbn in A3. lia.
Qed.

Lemma digit_not_space c : is_digit c = true -> is_space c = false.
Proof. unfold is_digit, is_space. lia. Qed.

Lemma parse_print lo hi n : lo <= n <= hi -> parse_int lo hi (print_int n) = Some n.
Proof.
  intros H. unfold print_int.
  assert (R : (lo <=? n) && (n <=? hi) = true) by lia.
  destruct (Z.ltb_spec n 0) as [Hn|Hn].
  - destruct (print_nat_digits (- n) ltac:(lia)) as (D1 & D2 & D3).
    unfold parse_int. cbn [drop_space]. change (is_space 45) with false. cbn iota. rewrite Z.eqb_refl.
    destruct (print_nat (- n)) as [|c r] eqn:E; [congruence|].
    pose proof (Forall_inv D1) as Hc. cbn beta in Hc. rewrite Hc.
    pose proof (read_digits_app (c :: r) D1 0 [] I) as RD. rewrite app_nil_r in RD. rewrite RD, D2.
    cbn [drop_space]. rewrite Z.opp_involutive, R. reflexivity.
  - destruct (print_nat_digits n Hn) as (D1 & D2 & D3).
    unfold parse_int.
    destruct (print_nat n) as [|c r] eqn:E; [congruence|].
    pose proof (Forall_inv D1) as Hc. cbn beta in Hc. cbn [drop_space].
    rewrite (digit_not_space c Hc).
    assert (c =? 45 = false) as -> by (unfold is_digit in Hc; lia).
    assert (c =? 43 = false) as -> by (unfold is_digit in Hc; lia).
    rewrite Hc.
    pose proof (read_digits_app (c :: r) D1 0 [] I) as RD. rewrite app_nil_r in RD. rewrite RD, D2.
    cbn [drop_space]. rewrite R. reflexivity.
Qed.

Lemma print_int_chars n c : In c (print_int n) -> is_digit c = true \/ c = 45.
Proof.
  unfold print_int. destruct (Z.ltb_spec n 0).
  - intros [<-|H1]; [right; reflexivity|left].
    destruct (print_nat_digits (- n) ltac:(lia)) as (D & _). rewrite Forall_forall in D. apply D, H1.
  - intros H1. left. destruct (print_nat_digits n ltac:(lia)) as (D & _). rewrite Forall_forall in D. apply D, H1.
Qed.
Lemma print_int_nonempty n : print_int n <> [].
Proof. unfold print_int. destruct (Z.ltb_spec n 0); [discriminate|]. apply print_nat_digits; lia. Qed.
Lemma print_int_bytes n : bytes_ok (print_int n).
Proof. apply Forall_forall. intros c Hc. apply print_int_chars in Hc. unfold is_digit, is_byte in *. lia. Qed.

Lemma parse_bool_print b : parse_bool (print_bool b) = Some b.
Proof. destruct b; reflexivity. Qed.

(** ** Key text *)
Lemma unser_hex h : forall st type byte data,
  (st = FIRST_HEX \/ st = LEFT_HEX) -> forall key, hex_pairs h key ->
  unser_loop h st type byte data = UEnd (match key with [] => st | _ => LEFT_HEX end) type (data ++ key).
Proof.
  assert (G : forall n h, (length h <= n)%nat -> forall st type byte data,
    (st = FIRST_HEX \/ st = LEFT_HEX) -> forall key, hex_pairs h key ->
    unser_loop h st type byte data = UEnd (match key with [] => st | _ => LEFT_HEX end) type (data ++ key)).
  { induction n as [|n IH]; intros u Hn st type byte data Hst key Hp.
    - destruct u; [|cbn in Hn; lia]. inversion Hp; subst. cbn. rewrite app_nil_r. reflexivity.
    - inversion Hp as [|a b x y t s Ha Hb Hts]; subst; [cbn; rewrite app_nil_r; reflexivity|].
      cbn [length] in Hn.
      pose proof (hex_digit_range _ _ Ha). pose proof (hex_digit_range _ _ Hb).
      apply fromHex_spec in Ha; [|lia]. apply fromHex_spec in Hb; [|lia].
      assert (E : unser_loop (a :: b :: t) st type byte data = unser_loop t LEFT_HEX type 0 (data ++ [x * 16 + y])).
      { cbn [unser_loop]. rewrite Ha, Hb.
        assert (x <? 0 = false) as -> by (apply Z.ltb_ge; lia). assert (y <? 0 = false) as -> by (apply Z.ltb_ge; lia).
        destruct Hst as [-> | ->]; reflexivity. }
      rewrite E, (IH t ltac:(lia) LEFT_HEX type 0 _ (or_intror eq_refl) s Hts).
      rewrite <- app_assoc. cbn [app]. replace (16 * x + y) with (x * 16 + y) by lia.
      destruct s; reflexivity. }
  intros st type byte data Hst key Hp. eapply G; [apply le_n|exact Hst|exact Hp].
Qed.

(** What the hexadecimal part can be when the loop ends well. *)
Lemma unser_hex_inv h : forall n, (length h <= n)%nat -> forall st type byte data st' type' data',
  (st = FIRST_HEX \/ st = LEFT_HEX) ->
  unser_loop h st type byte data = UEnd st' type' data' ->
  type' = type /\ (st' = RIGHT_HEX \/
    exists key, hex_pairs h key /\ data' = data ++ key /\ st' = match key with [] => st | _ => LEFT_HEX end).
Proof.
  intros n. revert h. induction n as [|n IH]; intros u Hn st type byte data st' type' data' Hst E.
  - destruct u; [|cbn in Hn; lia]. injection E as <- <- <-. split; [reflexivity|right].
    exists []. split; [constructor|split; [rewrite app_nil_r; reflexivity|reflexivity]].
  - destruct u as [|a u].
    { injection E as <- <- <-. split; [reflexivity|right].
      exists []. split; [constructor|split; [rewrite app_nil_r; reflexivity|reflexivity]]. }
    cbn [length] in Hn.
    assert (E1 : 0 <= fromHex a /\ unser_loop u RIGHT_HEX type (fromHex a * 16) data = UEnd st' type' data').
    { cbn [unser_loop] in E. destruct (Z.ltb_spec (fromHex a) 0); destruct Hst as [-> | ->]; try discriminate; split; assumption. }
    destruct E1 as [Ha E1]. destruct u as [|b u].
    { injection E1 as <- <- <-. split; [reflexivity|left; reflexivity]. }
    cbn [length] in Hn. cbn [unser_loop] in E1.
    destruct (Z.ltb_spec (fromHex b) 0) as [Hb|Hb]; [discriminate|].
    destruct (IH u ltac:(lia) LEFT_HEX type 0 _ st' type' data' (or_intror eq_refl) E1) as (-> & [->|(key & P1 & P2 & P3)]).
    + split; [reflexivity|left; reflexivity].
    + split; [reflexivity|right]. exists ((16 * fromHex a + fromHex b) :: key). split; [|split].
      * constructor; [apply fromHex_pos, Ha|apply fromHex_pos, Hb|exact P1].
      * rewrite P2, <- app_assoc. cbn [app]. do 3 f_equal. lia.
      * rewrite P3. destruct key; reflexivity.
Qed.

Lemma unser_hex_no_undef h : forall st type byte data, st <> IN_TYPE -> unser_loop h st type byte data <> UUndef.
Proof.
  induction h as [|c h IH]; intros st type byte data Hst; [discriminate|]. cbn [unser_loop].
  destruct (fromHex c <? 0); destruct st; try discriminate; try congruence; apply IH; discriminate.
Qed.

Lemma hex_number_range t n : hex_number t n -> 0 <= n.
Proof. induction 1 as [|t n c v H IH Hd]; [lia|]. apply hex_digit_range in Hd. lia. Qed.
Lemma hex_number_inj t n : hex_number t n -> forall m, hex_number t m -> n = m.
Proof.
  induction 1 as [|t n c v H IH Hd]; intros m Hm.
  - inversion Hm as [|t' n' c' v' H' Hd' E]; [reflexivity|]. apply app_eq_nil in E. destruct E; discriminate.
  - inversion Hm as [E|t' n' c' v' H' Hd' E]; [symmetry in E; apply app_eq_nil in E; destruct E; discriminate|].
    apply app_inj_tail in E. destruct E as [-> ->]. rewrite (IH _ H').
    pose proof (hex_digit_range _ _ Hd) as R. pose proof (hex_digit_range _ _ Hd') as R'.
    apply fromHex_spec in Hd; [|lia]. apply fromHex_spec in Hd'; [|lia]. lia.
Qed.
Lemma hex_number_no_colon t n : hex_number t n -> ~ In 58 t.
Proof.
  induction 1 as [|t n c v H IH Hd]; [intros []|]. intros Hi. apply in_app_iff in Hi. destruct Hi as [Hi|[Hi|[]]].
  - contradiction.
  - subst c. unfold hex_digit in Hd. lia.
Qed.

Lemma to_i32_small x : 0 <= x < 2 ^ 31 -> to_i32 x = x.
Proof.
  intros H. unfold to_i32. change (2 ^ 31) with 2147483648 in *. change (2 ^ 32) with 4294967296.
  rewrite Z.mod_small; lia.
Qed.

(** The type part, read from [pre] already seen with value [n]. *)
Lemma unser_type d : forall pre n rest, hex_number pre n -> forall m, hex_number (pre ++ d) m -> m < 2 ^ 31 ->
  unser_loop (d ++ rest) IN_TYPE n 0 [] = unser_loop rest IN_TYPE m 0 [].
Proof.
  induction d as [|c d IH]; intros pre n rest Hpre m Hm Hlt.
  - rewrite app_nil_r in Hm. rewrite (hex_number_inj _ _ Hpre _ Hm). reflexivity.
  - assert (exists v, hex_digit c v) as [v Hv].
    { clear - Hm. revert m Hm. induction d as [|x d IH] using rev_ind; intros m Hm.
      - inversion Hm as [E|t' n' c' v' H' Hd' E]; [destruct pre; discriminate|].
        apply app_inj_tail in E. destruct E as [_ ->]. exists v'; exact Hd'.
      - inversion Hm as [E|t' n' c' v' H' Hd' E]; [destruct pre; discriminate|].
        replace (pre ++ c :: d ++ [x]) with ((pre ++ c :: d) ++ [x]) in E by (rewrite <- app_assoc; reflexivity).
        apply app_inj_tail in E. destruct E as [-> _]. eapply IH, H'. }
    assert (Hn1 : hex_number (pre ++ [c]) (16 * n + v)) by (constructor; assumption).
    replace (pre ++ c :: d) with ((pre ++ [c]) ++ d) in Hm by (rewrite <- app_assoc; reflexivity).
    assert (Le : 16 * n + v <= m).
    { clear - Hn1 Hm. revert m Hm. induction d as [|x d IH] using rev_ind; intros m Hm.
      - rewrite app_nil_r in Hm. rewrite (hex_number_inj _ _ Hn1 _ Hm). lia.
      - inversion Hm as [E|t' n' c' v' H' Hd' E]; [destruct pre; discriminate|].
        rewrite app_assoc in E. apply app_inj_tail in E. destruct E as [-> _].
        specialize (IH _ H'). pose proof (hex_number_range _ _ H'). apply hex_digit_range in Hd'. lia. }
    pose proof (hex_digit_range _ _ Hv). pose proof (hex_number_range _ _ Hpre).
    cbn [app unser_loop]. assert (c =? 58 = false) as -> by (unfold hex_digit in Hv; lia).
    apply fromHex_spec in Hv; [|lia]. rewrite Hv. assert (v <? 0 = false) as -> by (apply Z.ltb_ge; lia).
    change (2 ^ 31) with 2147483648 in *. change (2 ^ 32) with 4294967296.
    assert (n <? 0 = false) as -> by (apply Z.ltb_ge; lia).
    assert (4294967296 <=? n * 16 = false) as -> by (apply Z.leb_gt; lia). cbn [orb].
    rewrite to_i32_small by (change (2 ^ 31) with 2147483648; lia).
    replace (n * 16 + v) with (16 * n + v) by lia.
    apply (IH (pre ++ [c]) (16 * n + v) rest Hn1 m Hm Hlt).
Qed.

Lemma unserialize_ok t ty key : key_text t ty key -> unserialize t = Ret (OK, {| ep_type := ty; ep_data := key |}).
Proof.
  intros (d & h & -> & Hd & Hh & Hk & Hty). unfold unserialize.
  assert (Rty : 0 < ty < 3) by (unfold ENC_AES128_CTR, ENC_AES128_GCM in Hty; lia).
  assert (Hlt : ty < 2 ^ 31) by (change (2 ^ 31) with 2147483648; lia).
  rewrite (unser_type d [] 0 (58 :: h) hexn_nil ty Hd Hlt).
  cbn [unser_loop]. rewrite Z.eqb_refl.
  assert (ty =? 0 = false) as -> by (apply Z.eqb_neq; lia).
  rewrite (unser_hex h FIRST_HEX ty 0 [] (or_introl eq_refl) key Hh).
  destruct key as [|k key]; [congruence|]. cbn [app].
  assert ((ty <=? ENC_NONE) || (NUM_ENC_TYPES <=? ty) = false) as -> by (unfold ENC_NONE, NUM_ENC_TYPES; lia).
  reflexivity.
Qed.

(** The loop over the type part ends with a colon. *)
Lemma unser_type_inv t : forall pre n st' type' data', hex_number pre n -> n < 2 ^ 31 ->
  unser_loop t IN_TYPE n 0 [] = UEnd st' type' data' -> 0 < type' -> st' <> IN_TYPE ->
  exists d h, t = d ++ 58 :: h /\ hex_number (pre ++ d) type' /\
    unser_loop h FIRST_HEX type' 0 [] = UEnd st' type' data'.
Proof.
  induction t as [|c t IH]; intros pre n st' type' data' Hpre Hn E Hty Hst; [injection E as <- <- <-; congruence|].
  cbn [unser_loop] in E. destruct (Z.eqb_spec c 58) as [Hc|Hc].
  - subst c. destruct (n =? 0); [discriminate|]. exists [], t. rewrite app_nil_r. split; [reflexivity|].
    destruct (unser_hex_inv t (length t) (le_n _) FIRST_HEX n 0 [] st' type' data' (or_introl eq_refl) E) as [-> _].
    split; [exact Hpre|exact E].
  - destruct (Z.ltb_spec (fromHex c) 0) as [Hv|Hv]; [discriminate|].
    pose proof (hex_number_range _ _ Hpre) as Hn0.
    destruct ((n <? 0) || (2 ^ 32 <=? n * 16)) eqn:Eu; [discriminate|].
    pose proof (fromHex_pos c Hv) as Hd. pose proof (hex_digit_range _ _ Hd) as Rv.
    change (2 ^ 31) with 2147483648 in *. change (2 ^ 32) with 4294967296 in *.
    destruct (Z.ltb_spec (n * 16 + fromHex c) 2147483648) as [Hs|Hs].
    + rewrite to_i32_small in E by (change (2 ^ 31) with 2147483648; lia).
      destruct (IH (pre ++ [c]) (n * 16 + fromHex c) st' type' data') as (d & h & -> & Hd1 & E1); try assumption.
      * replace (n * 16 + fromHex c) with (16 * n + fromHex c) by lia. constructor; assumption.
      * exists (c :: d), h. split; [reflexivity|]. rewrite <- app_assoc in Hd1. split; [exact Hd1|exact E1].
    + (* the value became negative: nothing good follows *)
      exfalso. assert (Neg : to_i32 (n * 16 + fromHex c) < 0).
      { unfold to_i32. change (2 ^ 31) with 2147483648. change (2 ^ 32) with 4294967296.
        assert ((n * 16 + fromHex c + 2147483648) mod 4294967296 = n * 16 + fromHex c - 2147483648).
        { symmetry. apply Z.mod_unique with (q := 1); lia. }
        lia. }
      set (m := to_i32 (n * 16 + fromHex c)) in *. clearbody m.
      destruct t as [|c' t]; [injection E as <- <- <-; lia|].
      cbn [unser_loop] in E. destruct (c' =? 58).
      * destruct (m =? 0); [discriminate|].
        destruct (unser_hex_inv t (length t) (le_n _) FIRST_HEX m 0 [] st' type' data' (or_introl eq_refl) E) as [-> _]. lia.
      * destruct (fromHex c' <? 0); [discriminate|]. assert (m <? 0 = true) as Hm by lia. rewrite Hm in E. discriminate.
Qed.

Lemma unserialize_inv t e : unserialize t = Ret (OK, e) -> key_text t (ep_type e) (ep_data e).
Proof.
  unfold unserialize. destruct (unser_loop t IN_TYPE 0 0 []) as [st type d|d|] eqn:E; [|discriminate|discriminate].
  destruct st; try discriminate.
  destruct ((type <=? ENC_NONE) || (NUM_ENC_TYPES <=? type)) eqn:R; [discriminate|]. intros [= <-]. cbn [ep_type ep_data].
  unfold ENC_NONE, NUM_ENC_TYPES in R.
  destruct (unser_type_inv t [] 0 LEFT_HEX type d hexn_nil ltac:(lia) E ltac:(lia) ltac:(discriminate)) as (d1 & h & -> & Hd & E1).
  destruct (unser_hex_inv h (length h) (le_n _) FIRST_HEX type 0 [] LEFT_HEX type d (or_introl eq_refl) E1)
    as (_ & [X|(key & P1 & P2 & P3)]); [discriminate|].
  cbn [app] in P2. subst d. exists d1, h. split; [reflexivity|]. split; [exact Hd|]. split; [exact P1|].
  split; [destruct key; [discriminate P3|discriminate]|]. unfold ENC_AES128_CTR, ENC_AES128_GCM. lia.
Qed.

Lemma unserialize_rejects t c e : unserialize t = Ret (c, e) -> c <> OK -> enc_isSet e = false /\ c = ERROR.
Proof.
  unfold unserialize. destruct (unser_loop t IN_TYPE 0 0 []) as [st type d|d|]; [| |discriminate].
  - destruct st; try (intros [= <- <-]; split; reflexivity).
    destruct ((type <=? ENC_NONE) || (NUM_ENC_TYPES <=? type)); intros [= <- <-] Hc; [split; reflexivity|congruence].
  - intros [= <- <-]; split; reflexivity.
Qed.

(** Undefined behaviour needs more than eight digits before the colon. *)
Lemma unserialize_no_undef t : (find_if (Z.eqb 58) t <= 8)%nat -> unserialize t <> Undef.
Proof.
  intros H.
  assert (G : forall k t n, (find_if (Z.eqb 58) t + k <= 8)%nat -> 0 <= n < 16 ^ Z.of_nat k ->
     unser_loop t IN_TYPE n 0 [] <> UUndef).
  { clear. intros k t. revert k. induction t as [|c t IH]; intros k n Hk Hn; [discriminate|].
    cbn [find_if] in Hk. rewrite Z.eqb_sym in Hk. cbn [unser_loop]. destruct (c =? 58).
    - destruct (n =? 0); [discriminate|]. apply unser_hex_no_undef. discriminate.
    - destruct (Z.ltb_spec (fromHex c) 0) as [|Hv]; [discriminate|].
      assert (Rv : 0 <= fromHex c < 16) by (eapply hex_digit_range, fromHex_pos, Hv).
      assert (B : 16 ^ Z.of_nat k <= 16 ^ 7) by (apply Z.pow_le_mono_r; lia).
      change (16 ^ 7) with 268435456 in B. change (2 ^ 32) with 4294967296.
      assert ((n <? 0) || (4294967296 <=? n * 16) = false) as -> by lia.
      destruct (Z.ltb_spec (n * 16 + fromHex c) 2147483648) as [Hs|Hs].
      + rewrite to_i32_small by (change (2 ^ 31) with 2147483648; lia).
        apply (IH (S k)); [lia|]. rewrite Nat2Z.inj_succ, Z.pow_succ_r by lia. lia.
      + (* eight digits read: the colon or the end must follow *)
        assert (k = 7)%nat.
        { destruct (Nat.eq_dec k 7) as [|Hne]; [assumption|]. assert (B6 : 16 ^ Z.of_nat k <= 16 ^ 6) by (apply Z.pow_le_mono_r; lia).
          change (16 ^ 6) with 16777216 in B6. lia. }
        subst k. assert (find_if (Z.eqb 58) t = O) as F by lia. destruct t as [|c' t]; [discriminate|].
        cbn [find_if] in F. destruct (Z.eqb_spec 58 c'); [|discriminate]. subst c'. cbn [unser_loop]. rewrite Z.eqb_refl.
        destruct (_ =? 0); [discriminate|]. apply unser_hex_no_undef. discriminate. }
  unfold unserialize. specialize (G O t 0 ltac:(lia) ltac:(cbn; lia)).
  destruct (unser_loop t IN_TYPE 0 0 []) as [st type d|d|]; [destruct st; try discriminate; destruct (_ || _); discriminate|discriminate|congruence].
Qed.

Lemma hex_bytes_pairs s : bytes_ok s -> hex_pairs (hex_bytes s) s.
Proof.
  induction s as [|c s IH]; intros H; [constructor|]. apply Forall_cons_iff in H. destruct H as [Hc Hs].
  cbn [hex_bytes]. destruct (byte_split c Hc) as (H1 & H2 & H3).
  replace (c :: s) with ((16 * (c / 16) + c mod 16) :: s) by (f_equal; lia).
  constructor; [apply toHex_digit, H1|apply toHex_digit, H2|apply IH, Hs].
Qed.

Lemma url_safe_key_text e : (ep_type e = ENC_AES128_CTR \/ ep_type e = ENC_AES128_GCM) ->
  ep_data e <> [] -> bytes_ok (ep_data e) -> key_text (enc_getUrlSafeString e) (ep_type e) (ep_data e).
Proof.
  intros H1 H2 H3. exists [toHex (ep_type e)], (hex_bytes (ep_data e)).
  split; [reflexivity|]. split.
  - assert (D : hex_digit (toHex (ep_type e)) (ep_type e)).
    { apply toHex_digit. unfold ENC_AES128_CTR, ENC_AES128_GCM in H1. lia. }
    pose proof (hexn_snoc [] 0 _ _ hexn_nil D) as Q. cbn [app] in Q. replace (16 * 0 + ep_type e) with (ep_type e) in Q by lia. exact Q.
  - split; [apply hex_bytes_pairs, H3|split; assumption].
Qed.

(** ** Maps *)
Lemma str_eqb_eq a : forall b, str_eqb a b = true <-> a = b.
Proof.
  induction a as [|x a IH]; intros [|y b]; cbn [str_eqb]; try (split; discriminate || reflexivity).
  rewrite Bool.andb_true_iff, Z.eqb_eq, IH. split; [intros [-> ->]; reflexivity|intros [= -> ->]; split; reflexivity].
Qed.
Lemma str_eqb_refl a : str_eqb a a = true. Proof. apply str_eqb_eq; reflexivity. Qed.
Lemma str_eqb_neq a b : a <> b -> str_eqb a b = false.
Proof. intros H. destruct (str_eqb a b) eqn:E; [apply str_eqb_eq in E; contradiction|reflexivity]. Qed.

Lemma map_get_set_same k v m : map_get k (map_set k v m) = v.
Proof.
  induction m as [|[k' v'] m IH]; cbn [map_set map_get]; [rewrite str_eqb_refl; reflexivity|].
  destruct (str_eqb k k') eqn:E; cbn [map_get]; [rewrite str_eqb_refl; reflexivity|].
  destruct (str_ltb k k'); cbn [map_get]; [rewrite str_eqb_refl; reflexivity|rewrite E; exact IH].
Qed.
Lemma map_get_set_other k k2 v m : k2 <> k -> map_get k2 (map_set k v m) = map_get k2 m.
Proof.
  intros H. induction m as [|[k' v'] m IH]; cbn [map_set map_get].
  - rewrite (str_eqb_neq _ _ H). reflexivity.
  - destruct (str_eqb k k') eqn:E.
    + apply str_eqb_eq in E. subst k'. cbn [map_get]. rewrite (str_eqb_neq _ _ H). reflexivity.
    + destruct (str_ltb k k'); cbn [map_get]; [rewrite (str_eqb_neq _ _ H); reflexivity|rewrite IH; reflexivity].
Qed.

(** Storing the non-empty entries of a map with distinct keys. *)
Definition sets (l m : kvmap) : kvmap := fold_left (fun m e => map_set (fst e) (snd e) m) l m.
Definition nonempty_entries (l : kvmap) : kvmap := filter (fun e => match snd e with [] => false | _ => true end) l.

Lemma sets_other k l : forall m, ~ In k (map fst l) -> map_get k (sets l m) = map_get k m.
Proof.
  induction l as [|[k1 v1] l IH]; intros m H; [reflexivity|]. cbn in H.
  unfold sets in *. cbn [fold_left fst snd]. rewrite IH by tauto. apply map_get_set_other. intros ->. tauto.
Qed.
Lemma get_notin k l : ~ In k (map fst l) -> map_get k l = [].
Proof.
  induction l as [|[k1 v1] l IH]; intros H; [reflexivity|]. cbn in *. rewrite str_eqb_neq by (intros ->; tauto). apply IH. tauto.
Qed.
Lemma nonempty_keys k l : In k (map fst (nonempty_entries l)) -> In k (map fst l).
Proof. intros H. apply in_map_iff in H. destruct H as (e & <- & He). apply filter_In in He. apply in_map, He. Qed.
Lemma sets_get k l : NoDup (map fst l) -> map_get k (sets (nonempty_entries l) []) = map_get k l.
Proof.
  assert (G : forall m, NoDup (map fst l) -> (In k (map fst l) -> map_get k m = []) ->
     map_get k (sets (nonempty_entries l) m) = if in_dec (list_eq_dec Z.eq_dec) k (map fst l) then map_get k l else map_get k m).
  { induction l as [|[k1 v1] l IH]; intros m N Hm; [reflexivity|].
    cbn [map fst] in N. apply NoDup_cons_iff in N. destruct N as [N1 N2].
    destruct (list_eq_dec Z.eq_dec k k1) as [->|Hk].
    - destruct (in_dec (list_eq_dec Z.eq_dec) k1 (map fst ((k1, v1) :: l))) as [_|C].
      2: { exfalso. apply C. cbn [map fst In]. left; reflexivity. }
      cbn [map_get]. rewrite str_eqb_refl. cbn [nonempty_entries filter snd].
      destruct v1 as [|x v1].
      + fold (nonempty_entries l). rewrite sets_other; [apply Hm; left; reflexivity|intros Q; apply N1, nonempty_keys, Q].
      + fold (nonempty_entries l). unfold sets. cbn [fold_left fst snd]. fold (sets (nonempty_entries l) (map_set k1 (x :: v1) m)).
        rewrite sets_other; [apply map_get_set_same|intros Q; apply N1, nonempty_keys, Q].
    - cbn [nonempty_entries filter snd]. fold (nonempty_entries l).
      assert (Eg : map_get k ((k1, v1) :: l) = map_get k l) by (cbn [map_get]; rewrite str_eqb_neq by congruence; reflexivity).
      assert (H1 : map_get k (sets (match v1 with [] => nonempty_entries l | _ => (k1, v1) :: nonempty_entries l end) m) =
        if in_dec (list_eq_dec Z.eq_dec) k (map fst l) then map_get k l else map_get k m).
      { destruct v1 as [|x v1]; [apply IH; [exact N2|intros Q; apply Hm; right; exact Q]|].
        unfold sets. cbn [fold_left fst snd]. fold (sets (nonempty_entries l) (map_set k1 (x :: v1) m)).
        rewrite IH; [|exact N2|intros Q; rewrite map_get_set_other by congruence; apply Hm; right; exact Q].
        rewrite map_get_set_other by congruence. reflexivity. }
      replace (if match v1 with [] => false | _ => true end then (k1, v1) :: nonempty_entries l else nonempty_entries l)
        with (match v1 with [] => nonempty_entries l | _ => (k1, v1) :: nonempty_entries l end) by (destruct v1; reflexivity).
      rewrite H1, Eg. destruct (in_dec _ k (map fst l)) as [Hi|Hi]; destruct (in_dec _ k _) as [Hj|Hj]; try reflexivity.
      + exfalso. apply Hj. right. exact Hi.
      + exfalso. destruct Hj as [Hj|Hj]; [cbn in Hj; congruence|contradiction]. }
  intros N. rewrite G; [|exact N|reflexivity].
  destruct (in_dec _ k (map fst l)) as [Hi|Hi]; [reflexivity|]. rewrite (get_notin k l Hi). reflexivity.
Qed.

(** ** Generated parameters are parsed back *)
Lemma find_if_app f a b : (forall c, In c a -> f c = false) -> find_if f (a ++ b) = (length a + find_if f b)%nat.
Proof.
  induction a as [|c a IH]; intros H; [reflexivity|]. cbn [app find_if length plus].
  rewrite (H c (or_introl eq_refl)), IH; [reflexivity|]. intros x Hx; apply H; right; exact Hx.
Qed.
Lemma find_if_none f a : (forall c, In c a -> f c = false) -> find_if f a = length a.
Proof. intros H. rewrite <- (app_nil_r a) at 1. rewrite find_if_app by exact H. cbn. lia. Qed.

Lemma split_step_at d a b : ~ In d a -> split_step d (a ++ d :: b) = (a, b).
Proof.
  intros H. unfold split_step. rewrite find_if_app by (intros c Hc; apply Z.eqb_neq; intros ->; contradiction).
  cbn [find_if]. rewrite Z.eqb_refl, Nat.add_0_r.
  rewrite firstn_app, Nat.sub_diag, firstn_all, app_nil_r.
  change (S (length a)) with (1 + length a)%nat. rewrite Nat.add_comm.
  replace (skipn (length a + 1) (a ++ d :: b)) with (skipn 1 (skipn (length a) (a ++ d :: b))).
  - rewrite skipn_app, Nat.sub_diag, skipn_all. reflexivity.
  - rewrite Nat.add_comm. clear. induction a as [|x a IH]; [reflexivity|]. exact IH.
Qed.
Lemma split_step_none d a : ~ In d a -> split_step d a = (a, []).
Proof.
  intros H. unfold split_step. rewrite find_if_none by (intros c Hc; apply Z.eqb_neq; intros ->; contradiction).
  rewrite firstn_all. f_equal. apply skipn_all2. lia.
Qed.

Definition good_key (k : list Z) : Prop := k <> [] /\ ~ In 38 k /\ ~ In 61 k.

(** gen_params without its leading separator. *)
Fixpoint pairs_text (l : kvmap) : list Z :=
  match l with
  | [] => []
  | (k, v) :: r => k ++ 61 :: escape v ++ match r with [] => [] | _ => 38 :: pairs_text r end
  end.
Lemma gen_params_text p m : gen_params p m =
  match nonempty_entries m with [] => [] | l => p :: pairs_text l end.
Proof.
  revert p. induction m as [|[k v] m IH]; intros p; [reflexivity|]. cbn [gen_params nonempty_entries filter snd].
  fold (nonempty_entries m). destruct v as [|x v]; [apply IH|].
  cbn [pairs_text]. rewrite IH. do 3 f_equal. destruct (nonempty_entries m); [rewrite app_nil_r; reflexivity|reflexivity].
Qed.

Lemma parse_pairs l : Forall (fun e => good_key (fst e) /\ bytes_ok (snd e)) l ->
  forall fuel st m, (length (pairs_text l) <= fuel)%nat ->
  parse_params fuel st (pairs_text l) m = (st, sets l m).
Proof.
  induction l as [|[k v] l IH]; intros H fuel st m Hf; [destruct fuel; reflexivity|].
  apply Forall_cons_iff in H. destruct H as [[(K1 & K2 & K3) V] Hl]. cbn [fst snd] in *.
  assert (NE : ~ In 38 (k ++ 61 :: escape v)).
  { intros Q. apply in_app_iff in Q. destruct Q as [Q|[Q|Q]]; [contradiction|discriminate|].
    apply (escape_no_separator v V 38 Q). unfold separator. tauto. }
  assert (Unp : forall rest, (length rest < fuel)%nat ->
    (split_step 38 (pairs_text ((k, v) :: l)) = (k ++ 61 :: escape v, rest)) ->
    parse_params fuel st (pairs_text ((k, v) :: l)) m = parse_params (pred fuel) st rest (map_set k v m)).
  { intros rest Hr E. destruct fuel as [|f]; [lia|]. cbn [pred].
    assert (Ne : exists c t, pairs_text ((k, v) :: l) = c :: t).
    { cbn [pairs_text]. destruct k as [|c k']; [congruence|]. eexists _, _. reflexivity. }
    destruct Ne as (c & t & Ne). cbn [parse_params]. rewrite Ne. cbn iota. rewrite <- Ne, E.
    assert (Ne2 : exists c t, k ++ 61 :: escape v = c :: t).
    { destruct k as [|c' k']; [congruence|]. eexists _, _. reflexivity. }
    destruct Ne2 as (c2 & t2 & Ne2). rewrite Ne2. cbn iota. rewrite <- Ne2, split_step_at by exact K3.
    destruct k as [|c3 k3]; [congruence|]. rewrite unescape_escape by exact V. reflexivity. }
  unfold sets. cbn [fold_left fst snd]. fold (sets l (map_set k v m)).
  cbn [pairs_text] in Hf. destruct l as [|e l].
  - rewrite app_nil_r in *. rewrite (Unp []); [|rewrite app_length in Hf; cbn in *; lia|].
    + destruct (pred fuel); reflexivity.
    + cbn [pairs_text]. rewrite app_nil_r. apply split_step_none, NE.
  - rewrite (Unp (pairs_text (e :: l))).
    + apply IH; [exact Hl|]. rewrite !app_length in Hf. cbn [length] in Hf. rewrite app_length in Hf. cbn [length] in Hf. lia.
    + rewrite !app_length in Hf. cbn [length] in Hf. rewrite app_length in Hf. cbn [length] in Hf. lia.
    + destruct e as [k2 v2].
      change (pairs_text ((k, v) :: (k2, v2) :: l)) with (k ++ 61 :: escape v ++ 38 :: pairs_text ((k2, v2) :: l)).
      replace (k ++ 61 :: escape v ++ 38 :: pairs_text ((k2, v2) :: l)) with
        ((k ++ 61 :: escape v) ++ 38 :: pairs_text ((k2, v2) :: l)) by (rewrite <- app_assoc; reflexivity).
      apply split_step_at, NE.
Qed.

(** ** Generated URLs are parsed back *)
Lemma cstr_app h rest : ~ In 0 h -> firstn (length h) (cstr (h ++ rest)) = h.
Proof.
  intros H. unfold cstr. rewrite find_if_app by (intros c Hc; apply Z.eqb_neq; intros <-; contradiction).
  rewrite firstn_firstn, Nat.min_l by lia. rewrite firstn_app, Nat.sub_diag, firstn_all. cbn. apply app_nil_r.
Qed.

Lemma process_generate u :
  valid_host (u_host u) -> u_port u < 2 ^ 31 ->
  Forall (fun e => good_key (fst e) /\ bytes_ok (snd e)) (u_params u) ->
  process (generateUrl u) =
    (OK, {| u_host := u_host u; u_port := if 0 <? u_port u then u_port u else -1;
            u_params := sets (nonempty_entries (u_params u)) [] |}).
Proof.
  intros (Hh1 & Hh0 & Hh2 & Hh3) Hport Hm.
  set (L := nonempty_entries (u_params u)).
  assert (HL : Forall (fun e => good_key (fst e) /\ bytes_ok (snd e)) L).
  { apply Forall_forall. intros e He. rewrite Forall_forall in Hm. apply Hm. apply filter_In in He. apply He. }
  set (tail := gen_params 63 (u_params u)).
  assert (Htail : tail = match L with [] => [] | _ => 63 :: pairs_text L end).
  { unfold tail. rewrite gen_params_text. fold L. destruct L; reflexivity. }
  set (portp := if 0 <? u_port u then 58 :: print_int (u_port u) else []).
  assert (Tail0 : match tail with [] => True | c :: _ => c = 63 end).
  { rewrite Htail. destruct L; [exact I|reflexivity]. }
  assert (Hrest : forall host,  host <> [] ->
    (let st1 := match host with [] => URI_PARSE_ERROR | _ => OK end in
     let p1 := portp ++ tail in
        let '(st2, port, p2) :=
          match p1 with
          | c1 :: r1 =>
            if c1 =? 58
            then let i := find_if (Z.eqb 63) r1 in
                 match parse_i32 (firstn i (cstr r1)) with
                 | Some v => (st1, v, skipn i r1)
                 | None => (URI_PARSE_ERROR, -1, skipn i r1)
                 end
            else (st1, -1, p1)
          | [] => (st1, -1, [])
          end in
        match p2 with
        | [] => (st2, {| u_host := host; u_port := port; u_params := [] |})
        | c2 :: r2 =>
          if negb (c2 =? 63)
          then (URI_PARSE_ERROR, {| u_host := host; u_port := port; u_params := [] |})
          else let (st3, m) := parse_params (List.length r2) st2 r2 [] in
               (st3, {| u_host := host; u_port := port; u_params := m |})
        end) =
    (OK, {| u_host := host; u_port := if 0 <? u_port u then u_port u else -1; u_params := sets L [] |})).
  { intros host Hne. cbv zeta. destruct host as [|h0 host]; [congruence|].
    assert (Fin : forall port,
      match tail with
      | [] => (OK, {| u_host := h0 :: host; u_port := port; u_params := [] |})
      | c2 :: r2 =>
          if negb (c2 =? 63)
          then (URI_PARSE_ERROR, {| u_host := h0 :: host; u_port := port; u_params := [] |})
          else let (st3, m) := parse_params (List.length r2) OK r2 [] in
               (st3, {| u_host := h0 :: host; u_port := port; u_params := m |})
      end = (OK, {| u_host := h0 :: host; u_port := port; u_params := sets L [] |})).
    { intros port. rewrite Htail. destruct L as [|e l] eqn:EL; [reflexivity|]. rewrite <- EL in *.
      change (63 =? 63) with true. cbn [negb]. rewrite parse_pairs by (exact HL || lia). reflexivity. }
    unfold portp. destruct (Z.ltb_spec 0 (u_port u)) as [Hp|Hp].
    - cbn [app]. rewrite Z.eqb_refl.
      assert (Nq : forall c, In c (print_int (u_port u)) -> (63 =? c) = false).
      { intros c Hc. apply print_int_chars in Hc. apply Z.eqb_neq. unfold is_digit in Hc. lia. }
      assert (Ei : find_if (Z.eqb 63) (print_int (u_port u) ++ tail) = length (print_int (u_port u))).
      { rewrite find_if_app by exact Nq. destruct tail as [|c t]; [cbn; lia|]. subst c. cbn [find_if]. rewrite Z.eqb_refl. lia. }
      rewrite Ei. rewrite cstr_app by (intros Q; apply print_int_chars in Q; unfold is_digit in Q; lia).
      unfold parse_i32. rewrite parse_print by (change (2 ^ 31) with 2147483648 in *; lia).
      rewrite skipn_app, Nat.sub_diag, skipn_all. cbn [app skipn]. apply Fin.
    - cbn [app]. destruct tail as [|c t] eqn:Et; [apply Fin|].
      rewrite Tail0. change (63 =? 58) with false. cbn iota.
      specialize (Fin (-1)). rewrite Tail0 in Fin. exact Fin. }
  unfold generateUrl, process. fold portp. fold tail.
  set (hostp := if existsb (Z.eqb 58) (u_host u) then 91 :: u_host u ++ [93] else u_host u).
  assert (zlen (WDT_URL_PREFIX ++ hostp ++ portp ++ tail) <? zlen WDT_URL_PREFIX = false) as ->.
  { apply Z.ltb_ge. unfold zlen. rewrite app_length. lia. }
  assert (E6 : firstn 6 (WDT_URL_PREFIX ++ hostp ++ portp ++ tail) = WDT_URL_PREFIX) by reflexivity.
  rewrite E6, str_eqb_refl. cbn [negb].
  assert (E7 : skipn 6 (WDT_URL_PREFIX ++ hostp ++ portp ++ tail) = hostp ++ portp ++ tail) by reflexivity.
  rewrite E7.
  unfold hostp. destruct (existsb (Z.eqb 58) (u_host u)) eqn:Ex.
  - apply existsb_exists in Ex. destruct Ex as (c & Hc & Ec). apply Z.eqb_eq in Ec. subst c.
    specialize (Hh2 Hc). rewrite <- app_comm_cons. rewrite Z.eqb_refl.
    rewrite <- app_assoc. cbn [app].
    assert (Fi : find_if (Z.eqb 93) (u_host u ++ 93 :: portp ++ tail) = length (u_host u)).
    { rewrite find_if_app by (intros c Hc'; apply Z.eqb_neq; intros <-; contradiction). cbn [find_if]. rewrite Z.eqb_refl. lia. }
    rewrite Fi.
    assert (Nat.eqb (length (u_host u)) (length (u_host u ++ 93 :: portp ++ tail)) = false) as ->.
    { apply Nat.eqb_neq. rewrite app_length. cbn [length]. lia. }
    rewrite cstr_app by exact Hh0.
    assert (Es : skipn (S (length (u_host u))) (u_host u ++ 93 :: portp ++ tail) = portp ++ tail).
    { clear. induction (u_host u) as [|x l IH]; [reflexivity|exact IH]. }
    rewrite Es. apply Hrest, Hh1.
  - assert (N58 : ~ In 58 (u_host u)).
    { intros Q. assert (existsb (Z.eqb 58) (u_host u) = true); [|congruence]. apply existsb_exists. exists 58. split; [exact Q|reflexivity]. }
    destruct (Hh3 N58) as [N63 N91].
    destruct (u_host u) as [|h0 hr] eqn:Eh; [congruence|]. cbn [hd] in N91. rewrite <- app_comm_cons.
    apply Z.eqb_neq in N91. rewrite N91. rewrite app_comm_cons.
    assert (Fi : find_if (fun x => (x =? 58) || (x =? 63)) ((h0 :: hr) ++ portp ++ tail) = length (h0 :: hr)).
    { rewrite find_if_app.
      - assert (find_if (fun x => (x =? 58) || (x =? 63)) (portp ++ tail) = 0%nat); [|lia].
        unfold portp. destruct (0 <? u_port u); [reflexivity|]. cbn [app].
        destruct tail as [|c t]; [reflexivity|]. rewrite Tail0. reflexivity.
      - intros c Hc. apply Bool.orb_false_iff. split; apply Z.eqb_neq; intros ->; contradiction. }
    rewrite Fi, cstr_app by exact Hh0.
    rewrite skipn_app, Nat.sub_diag, skipn_all. cbn [app skipn].
    exact (Hrest (h0 :: hr) Hh1).
Qed.

(** ** Ports *)
Lemma parse_serialized l : l <> [] -> Forall in_i32 l -> forall fuel err,
  (length (serialized_ports l) < fuel)%nat -> parse_ports fuel err (serialized_ports l) = (err, l).
Proof.
  induction l as [|p l IH]; intros Hne H fuel err Hf; [congruence|].
  apply Forall_cons_iff in H. destruct H as [Hp Hl].
  assert (Nc : ~ In 44 (print_int p)).
  { intros Q. apply print_int_chars in Q. unfold is_digit in Q. lia. }
  assert (Pp : parse_i32 (print_int p) = Some p).
  { apply parse_print. unfold in_i32 in Hp. lia. }
  destruct fuel as [|f]; [lia|]. cbn [parse_ports serialized_ports]. cbn [serialized_ports] in Hf.
  pose proof (print_int_nonempty p) as Ne.
  destruct l as [|q l].
  - rewrite app_nil_r. rewrite split_step_none by exact Nc.
    destruct (print_int p) as [|c t] eqn:E; [congruence|]. rewrite <- E in *. rewrite Pp. reflexivity.
  - rewrite split_step_at by exact Nc.
    destruct (print_int p) as [|c t] eqn:E; [congruence|]. rewrite <- E in *. rewrite Pp.
    assert (Ne2 : exists c t, serialized_ports (q :: l) = c :: t).
    { cbn [serialized_ports]. pose proof (print_int_nonempty q). destruct (print_int q) as [|c' t']; [congruence|]. eexists _, _; reflexivity. }
    destruct Ne2 as (c2 & t2 & Ne2). rewrite Ne2. rewrite <- Ne2.
    rewrite IH; [reflexivity|discriminate|exact Hl|].
    rewrite app_length in Hf. cbn [length] in Hf. lia.
Qed.

Lemma hasHoles_consec l : forall p, hasHoles p l = false <-> consecutive (p + 1) l.
Proof.
  induction l as [|q l IH]; intros p; cbn [hasHoles consecutive]; [tauto|].
  destruct (Z.eqb_spec q (p + 1)) as [->|H]; cbn [negb]; [rewrite IH; tauto|]. split; [discriminate|intros [? _]; contradiction].
Qed.
Lemma consecutive_gen l : forall p, consecutive p l -> l = genPortsVector p (zlen l).
Proof.
  unfold genPortsVector, zlen. induction l as [|q l IH]; intros p H; [reflexivity|].
  destruct H as [-> H]. rewrite (IH _ H) at 1. rewrite !Nat2Z.id. cbn [length seq map].
  f_equal; [lia|]. rewrite <- seq_shift, map_map. apply map_ext. intros i. lia.
Qed.
Lemma consecutive_last l : forall p, consecutive p l -> Forall in_i32 l -> l <> [] -> p + zlen l - 1 < 2 ^ 31.
Proof.
  induction l as [|q l IH]; intros p H F Hne; [congruence|]. destruct H as [-> H]. apply Forall_cons_iff in F. destruct F as [F1 F2].
  unfold zlen in *. cbn [length]. destruct l as [|q' l]; [cbn; unfold in_i32 in F1; lia|].
  specialize (IH _ H F2 ltac:(discriminate)). cbn [length] in *. lia.
Qed.

(** ** The request round trip *)
Definition req_params (r : request) : kvmap :=
  u_params (
    let u0 := {| u_host := r_host r; u_port := -1; u_params := [] |} in
    let u1 := setQueryParam TRANSFER_ID_PARAM (r_transferId r) u0 in
    let u2 := setQueryParam NAMESPACE_PARAM (r_ns r) u1 in
    let u3 := setQueryParam DEST_IDENTIFIER_PARAM (r_destId r) u2 in
    let u4 := setQueryParam RECEIVER_PROTOCOL_VERSION_PARAM (print_int (r_version r)) u3 in
    let u5 := setQueryParam IV_CHANGE_INTERVAL_PARAM (print_int (r_iv r)) u4 in
    let u6 := if r_resume r then setQueryParam DOWNLOAD_RESUMPTION_PARAM (print_bool (r_resume r)) u5 else u5 in
    let u7 := serializePorts (r_ports r) u6 in
    let u9 := if enc_isSet (r_enc r)
              then setQueryParam ENCRYPTION_PARAM (enc_getUrlSafeString (r_enc r)) u7
              else u7 in
    setQueryParam TLS_PARAM (print_bool (r_tls r)) u9).
Definition req_port (r : request) : Z :=
  match r_ports r with [] => -1 | p :: l => if hasHoles p l then -1 else p end.

Lemma gen_is names hash r : r_error r = OK ->
  genWdtUrlWithSecret names hash r =
  generateUrl {| u_host := r_host r; u_port := req_port r; u_params := req_params r |}.
Proof.
  intros E. unfold genWdtUrlWithSecret, generateUrlInternal. rewrite E. change (OK =? OK) with true. cbn [negb].
  unfold req_params, req_port. cbv zeta. f_equal.
  destruct (r_resume r), (enc_isSet (r_enc r)), (r_ports r) as [|p l]; cbn [serializePorts]; try destruct (hasHoles p l); reflexivity.
Qed.

(** The parameters of a request, written out. *)
Inductive pkind := PList | PCount.
Definition ports_kind (r : request) : pkind :=
  match r_ports r with [] => PCount | p :: l => if hasHoles p l then PList else PCount end.

Lemma req_params_keys r : r_ports r <> [] ->
  NoDup (map fst (req_params r)) /\ Forall (fun k => good_key k) (map fst (req_params r)).
Proof.
  intros H. unfold req_params. destruct (r_ports r) as [|p l]; [congruence|].
  cbn [serializePorts].
  set (v1 := print_int (r_version r)). set (v2 := print_int (r_iv r)). set (v3 := print_bool (r_resume r)).
  set (v4 := serialized_ports (p :: l)). set (v5 := print_nat (zlen (p :: l))). set (v6 := enc_getUrlSafeString (r_enc r)).
  set (v7 := print_bool (r_tls r)). clearbody v1 v2 v3 v4 v5 v6 v7.
  destruct (r_resume r), (enc_isSet (r_enc r)), (hasHoles p l); cbv -[In good_key r_transferId r_ns r_destId r_host];
  (split; [repeat (apply NoDup_cons; [cbn [In]; intuition discriminate|]); apply NoDup_nil|
     repeat apply Forall_cons; try apply Forall_nil; (split; [discriminate|split; cbn [In]; intuition discriminate])]).
Qed.

Lemma req_params_get r : r_ports r <> [] ->
  map_get TRANSFER_ID_PARAM (req_params r) = r_transferId r /\
  map_get NAMESPACE_PARAM (req_params r) = r_ns r /\
  map_get DEST_IDENTIFIER_PARAM (req_params r) = r_destId r /\
  map_get DIRECTORY_PARAM (req_params r) = [] /\
  map_get RECEIVER_PROTOCOL_VERSION_PARAM (req_params r) = print_int (r_version r) /\
  map_get IV_CHANGE_INTERVAL_PARAM (req_params r) = print_int (r_iv r) /\
  map_get DOWNLOAD_RESUMPTION_PARAM (req_params r) = (if r_resume r then [49] else []) /\
  map_get ENCRYPTION_PARAM (req_params r) = (if enc_isSet (r_enc r) then enc_getUrlSafeString (r_enc r) else []) /\
  map_get TLS_PARAM (req_params r) = print_bool (r_tls r) /\
  map_get START_PORT_PARAM (req_params r) = [] /\
  map_get PORTS_PARAM (req_params r) = (match ports_kind r with PList => serialized_ports (r_ports r) | PCount => [] end) /\
  map_get NUM_PORTS_PARAM (req_params r) = (match ports_kind r with PList => [] | PCount => print_nat (zlen (r_ports r)) end).
Proof.
  intros H. unfold req_params, ports_kind. destruct (r_ports r) as [|p l]; [congruence|].
  cbn [serializePorts].
  set (v1 := print_int (r_version r)). set (v2 := print_int (r_iv r)).
  set (v4 := serialized_ports (p :: l)). set (v5 := print_nat (zlen (p :: l))). set (v6 := enc_getUrlSafeString (r_enc r)).
  set (v7 := print_bool (r_tls r)). clearbody v1 v2 v4 v5 v6 v7.
  destruct (r_resume r), (enc_isSet (r_enc r)), (hasHoles p l); repeat split; reflexivity.
Qed.

Lemma req_params_bytes r : valid_request r -> Forall (fun e => good_key (fst e) /\ bytes_ok (snd e)) (req_params r).
Proof.
  intros (_ & _ & (Hp & Hp2 & _) & Hk & _ & _ & B1 & B2 & B3).
  destruct (req_params_keys r Hp) as [_ K].
  assert (S : Forall (fun v => bytes_ok v) (map snd (req_params r))).
  { assert (Bt : forall b, bytes_ok (print_bool b)) by (intros []; repeat constructor; unfold is_byte; lia).
    assert (Bn : forall n, 0 <= n -> bytes_ok (print_nat n)).
    { intros n Hn. destruct (print_nat_digits n Hn) as [D _]. eapply Forall_impl; [|exact D]. intros c Hc. unfold is_digit, is_byte in *. lia. }
    assert (Bs : forall l, bytes_ok (serialized_ports l)).
    { induction l as [|p l IH]; [constructor|]. cbn [serialized_ports]. apply Forall_app. split; [apply print_int_bytes|].
      destruct l; [constructor|constructor; [unfold is_byte; lia|exact IH]]. }
    assert (Be : enc_isSet (r_enc r) = true -> bytes_ok (enc_getUrlSafeString (r_enc r))).
    { intros E. destruct Hk as [Hk|(T & _ & Hd)]; [rewrite Hk in E; discriminate|].
      assert (Th : forall v, 0 <= v < 16 -> is_byte (toHex v)) by (intros v Hv; pose proof (toHex_digit v Hv); unfold hex_digit, is_byte in *; lia).
      unfold enc_getUrlSafeString. constructor; [apply Th; unfold ENC_AES128_CTR, ENC_AES128_GCM in T; lia|].
      constructor; [unfold is_byte; lia|].
      induction (ep_data (r_enc r)) as [|c s IH]; [constructor|]. apply Forall_cons_iff in Hd. destruct Hd as [Hc Hd].
      destruct (byte_split c Hc) as (Q1 & Q2 & _). cbn [hex_bytes]. constructor; [apply Th, Q1|constructor; [apply Th, Q2|apply IH, Hd]]. }
    pose proof (print_int_bytes (r_version r)) as Bv. pose proof (print_int_bytes (r_iv r)) as Bi.
    unfold req_params. destruct (r_ports r) as [|p l]; [congruence|]. cbn [serializePorts].
    pose proof (Bs (p :: l)) as Bp. pose proof (Bn (zlen (p :: l)) ltac:(unfold zlen; lia)) as Bc.
    pose proof (Bt (r_tls r)) as Bl. pose proof (Bt (r_resume r)) as Br.
    set (v1 := print_int (r_version r)) in *. set (v2 := print_int (r_iv r)) in *. set (v3 := print_bool (r_resume r)) in *.
    set (v4 := serialized_ports (p :: l)) in *. set (v5 := print_nat (zlen (p :: l))) in *. set (v6 := enc_getUrlSafeString (r_enc r)) in *.
    set (v7 := print_bool (r_tls r)) in *. set (a1 := r_transferId r) in *. set (a2 := r_ns r) in *. set (a3 := r_destId r) in *.
    clearbody v1 v2 v3 v4 v5 v6 v7 a1 a2 a3. clear - B1 B2 B3 Bv Bi Bp Bc Bl Br Be.
    destruct (r_resume r), (enc_isSet (r_enc r)), (hasHoles p l); cbv -[is_byte bytes_ok r_host];
      try (specialize (Be eq_refl)); repeat apply Forall_cons; try apply Forall_nil; assumption. }
  clear - K S. induction (req_params r) as [|e l IH]; [constructor|]. cbn [map] in K, S.
  apply Forall_cons_iff in K. apply Forall_cons_iff in S. constructor; [tauto|]. apply IH; tauto.
Qed.

Lemma url_roundtrip names hash r : valid_request r ->
  parseRequest (genWdtUrlWithSecret names hash r) = Ret (without_dir r).
Proof.
  intros V. pose proof V as (He & Hh & (Hp1 & Hp2 & Hp3 & Hp4) & Hk & Hv & Hi & B1 & B2 & B3).
  rewrite gen_is by exact He. unfold parseRequest.
  assert (Hport : req_port r < 2 ^ 31).
  { unfold req_port. destruct (r_ports r) as [|p l]; [change (2 ^ 31) with 2147483648; lia|].
    apply Forall_inv in Hp2. unfold in_i32 in Hp2. destruct (hasHoles p l); change (2 ^ 31) with 2147483648 in *; lia. }
  rewrite process_generate; [|exact Hh|exact Hport|apply req_params_bytes, V]. cbn [u_params u_host u_port].
  destruct (req_params_keys r Hp1) as [ND _].
  rewrite !sets_get by exact ND.
  destruct (req_params_get r Hp1) as (G1 & G2 & G3 & G4 & G5 & G6 & G7 & G8 & G9 & G10 & G11 & G12).
  rewrite G1, G2, G3, G4, G5, G6, G7, G8, G9, G10, G11, G12. clear G1 G2 G3 G4 G5 G6 G7 G8 G9 G10 G11 G12.
  (* the key *)
  assert (KE : match (if enc_isSet (r_enc r) then enc_getUrlSafeString (r_enc r) else []) with
         | [] => Ret (OK, enc_none)
         | _ => obind (unserialize (if enc_isSet (r_enc r) then enc_getUrlSafeString (r_enc r) else [])) (fun '(code, e) =>
                  Ret (if code =? OK then OK else getMoreInterestingError code OK, e))
         end = Ret (OK, r_enc r)).
  { destruct Hk as [->|(T1 & T2 & T3)]; [reflexivity|].
    assert (enc_isSet (r_enc r) = true) as ->.
    { unfold enc_isSet, ENC_NONE, ENC_AES128_CTR, ENC_AES128_GCM in *. apply Bool.negb_true_iff, Z.eqb_neq. lia. }
    rewrite (unserialize_ok _ _ _ (url_safe_key_text _ T1 T2 T3)). unfold enc_getUrlSafeString. cbn iota. cbn [obind].
    change (OK =? OK) with true. cbn iota. destruct (r_enc r); reflexivity. }
  cbv zeta. rewrite KE. cbn [obind].
  assert (T1 : opt_param parse_bool (print_bool (r_tls r)) false OK = (OK, r_tls r)) by (destruct (r_tls r); reflexivity).
  assert (T2 : opt_param parse_bool (if r_resume r then [49] else []) false OK = (OK, r_resume r)) by (destruct (r_resume r); reflexivity).
  assert (T3 : forall n d, in_i64 n -> opt_param parse_i64 (print_int n) d OK = (OK, n)).
  { intros n d Hn. unfold opt_param. pose proof (print_int_nonempty n). destruct (print_int n) as [|c t] eqn:E; [congruence|].
    rewrite <- E. unfold parse_i64. rewrite parse_print; [reflexivity|unfold in_i64 in Hn; lia]. }
  rewrite T1, T2, !T3 by assumption. clear T1 T2 T3.
  unfold ports_kind, req_port. destruct (r_ports r) as [|p l] eqn:Ep; [congruence|].
  destruct (hasHoles p l) eqn:Eh.
  - rewrite parse_serialized; [|discriminate|exact Hp2|lia].
    unfold without_dir. rewrite Ep, He. reflexivity.
  - cbn [length parse_ports split_step find_if firstn skipn].
    assert (C : consecutive p (p :: l)) by (split; [reflexivity|apply hasHoles_consec, Eh]).
    specialize (Hp4 p l eq_refl C).
    assert (0 <? p = true) as -> by lia. assert (p <=? 0 = false) as -> by lia.
    change (parse_ports (S (length (@nil Z))) OK []) with (OK, @nil Z). cbn iota.
    destruct (print_nat_digits (zlen (p :: l)) ltac:(unfold zlen; lia)) as (_ & _ & Ne).
    assert (PN : parse_i32 (print_nat (zlen (p :: l))) = Some (zlen (p :: l))).
    { pose proof (parse_print (- 2 ^ 31) (2 ^ 31 - 1) (zlen (p :: l))) as Q. unfold print_int in Q.
      assert (zlen (p :: l) <? 0 = false) as R by (apply Z.ltb_ge; unfold zlen; lia). rewrite R in Q. apply Q.
      split; [change (2 ^ 31) with 2147483648; unfold zlen; lia|lia]. }
    destruct (print_nat (zlen (p :: l))) as [|c t] eqn:En; [congruence|]. rewrite PN.
    change (OK =? OK) with true. cbn iota.
    pose proof (consecutive_last (p :: l) p C Hp2 ltac:(discriminate)) as Last.
    assert (2 ^ 31 <=? p + zlen (p :: l) - 1 = false) as -> by (apply Z.leb_gt; exact Last).
    rewrite <- (consecutive_gen (p :: l) p C).
    unfold without_dir. rewrite Ep, He. reflexivity.
Qed.

(** ** Log text *)
Lemma log_only_hash names r : exists g, forall hash k, getLogSafeString names hash (with_key r k) = g (hash k).
Proof.
  exists (fun h => getLogSafeString names (fun _ => h) r). intros hash k.
  unfold getLogSafeString, generateUrlInternal, with_key, enc_isSet, enc_getLogSafeString. cbn.
  destruct (negb (r_error r =? OK)); reflexivity.
Qed.

Lemma log_equal names hash r k1 k2 : hash k1 = hash k2 ->
  getLogSafeString names hash (with_key r k1) = getLogSafeString names hash (with_key r k2).
Proof. intros H. destruct (log_only_hash names r) as [g Hg]. rewrite !Hg, H. reflexivity. Qed.
