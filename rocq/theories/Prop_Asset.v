(** * Properties C10-C13: symbols and assets.
    Model: Asset.v. Vocabulary: [code_text], [asset_text] (AssetFacts.v), [dval]/[dec]/[decn] (Decimal.v). *)
From Verif Require Import Base Decimal Name NameFacts Asset AssetFacts.

(** ** C10 *)
(** Printing a valid code gives 1 to 7 letters which every parser maps back. *)
Theorem C10_symbol_code_roundtrip : forall v, 0 <= v < 2 ^ 56 -> symbol_code_is_valid v = true ->
  let t := symbol_code_to_string v in
  code_text t /\ string_to_symbol_code t = Some v /\ symbol_code_ctor t = Ok v /\
  symbol_code_length v = Z.of_nat (List.length t).
Proof.
  intros v Hv V. apply is_valid56 in V; auto. destruct V as (l & C & ->). cbv zeta.
  rewrite code_to_string by auto. split; auto. split; [|split].
  - unfold string_to_symbol_code. pose proof (code_at_ok true 0 l [] C I (or_intror eq_refl)) as H.
    cbn [spaces repeat app] in H. rewrite app_nil_r in H. now rewrite H.
  - destruct C. apply ctor_ok; auto. lia.
  - now apply code_length.
Qed.
Print Assumptions C10_symbol_code_roundtrip.

Theorem C10_symbol_code_parser : forall s v,
  string_to_symbol_code s = Some v <->
    exists k l, s = repeat 32 k ++ l /\ code_text l /\ 0 <= v < 2 ^ 56 /\ symbol_code_to_string v = l.
Proof.
  intros s v. unfold string_to_symbol_code. split.
  - destruct (string_to_symbol_code_at true s) as [[x r]|] eqn:E; [|discriminate]. cbn. intros H. injection H as ->.
    apply code_at_inv in E. destruct E as (k & l & S & C & V & _ & [R|R]); [discriminate|]. subst r.
    exists k, l. rewrite app_nil_r in S. subst v. pose proof (code_text_range l C).
    repeat split; auto; try lia; try apply C. now apply code_to_string.
  - intros (k & l & S & C & R & E).
    assert (v = le_val l).
    { pose proof (code_at_ok true k l [] C I (or_intror eq_refl)) as _.
      destruct (Z.eq_dec v (le_val l)) as [|N]; auto. exfalso.
      (* two values below 2^56 with the same text are equal *)
      assert (G : forall f x, 0 <= x < 256 ^ Z.of_nat f -> le_val (symbol_code_to_string_loop f x) = x).
      { clear. induction f as [|f IH]; intros x Hx; cbn [symbol_code_to_string_loop].
        - cbn in *. lia.
        - rewrite Nat2Z.inj_succ, Z.pow_succ_r in Hx by lia.
          destruct (Z.ltb_spec 0 x); [|cbn; lia]. cbn [le_val]. rewrite land255, shr8, IH.
          + pose proof (Z.div_mod x 256). lia.
          + split; [apply Z.div_pos; lia|apply Z.div_lt_upper_bound; lia]. }
      apply N. rewrite <- E. unfold symbol_code_to_string. symmetry. apply G.
      change (256 ^ Z.of_nat 8) with (2 ^ 64). lia. }
    pose proof (code_at_ok true k l [] C I (or_intror eq_refl)) as X.
    rewrite app_nil_r in X. unfold spaces in X. rewrite S, X. cbn [option_map fst]. now rewrite H.
Qed.
Print Assumptions C10_symbol_code_parser.

Theorem C10_symbol_code_ctor : forall s v,
  symbol_code_ctor s = Ok v <->
    forallb is_upper s = true /\ (List.length s <= 7)%nat /\ 0 <= v < 2 ^ 56 /\ symbol_code_to_string v = s.
Proof.
  intros s v. split.
  - intros H. apply ctor_inv in H. destruct H as (F & L & ->). split; [exact F|]. split; [exact L|]. split.
    + destruct s; [cbn; lia|]. assert (code_text (z :: s)) by (split; [cbn in *; lia|auto]). pose proof (code_text_range _ H). lia.
    + apply code_to_string_loop; auto; lia.
  - intros (F & L & R & E). destruct s as [|c s].
    + unfold symbol_code_to_string in E. cbn [symbol_code_to_string_loop] in E.
      destruct (Z.ltb_spec 0 v); [discriminate|]. assert (v = 0) by lia. subst. reflexivity.
    + rewrite ctor_ok by auto. f_equal.
      assert (C : code_text (c :: s)) by (split; [cbn in *; lia|auto]).
      assert (H : string_to_symbol_code (c :: s) = Some v).
      { apply C10_symbol_code_parser. exists O, (c :: s). auto. }
      pose proof (code_at_ok true 0 (c :: s) [] C I (or_intror eq_refl)) as X.
      rewrite app_nil_r in X. unfold string_to_symbol_code in H.
      replace (string_to_symbol_code_at true (c :: s)) with (Some (le_val (c :: s), @nil Z)) in H by (symmetry; exact X).
      cbn [option_map fst] in H. congruence.
Qed.
Print Assumptions C10_symbol_code_ctor.

(** [is_valid] on every 64-bit value: the letters, then zero bytes; the eighth byte is not
    looked at after seven letters. *)
Theorem C10_is_valid : forall v, 0 <= v < 2 ^ 64 ->
  (symbol_code_is_valid v = true <->
   exists l top, code_text l /\ 0 <= top < 256 /\ (top = 0 \/ List.length l = 7%nat) /\ v = le_val l + top * 2 ^ 56).
Proof. exact is_valid_spec. Qed.
Print Assumptions C10_is_valid.
Theorem C10_is_valid_exact_below_2_56 : forall v, 0 <= v < 2 ^ 56 ->
  (symbol_code_is_valid v = true <-> code_text (symbol_code_to_string v)).
Proof.
  intros v Hv. split.
  - intros V. now apply C10_symbol_code_roundtrip.
  - intros C. apply is_valid56; auto. exists (symbol_code_to_string v). split; auto.
    assert (H : string_to_symbol_code (symbol_code_to_string v) = Some v).
    { apply C10_symbol_code_parser. exists O, (symbol_code_to_string v). auto. }
    pose proof (code_at_ok true 0 _ [] C I (or_intror eq_refl)) as X.
    rewrite app_nil_r in X. change (spaces 0 ++ symbol_code_to_string v) with (symbol_code_to_string v) in X.
    unfold string_to_symbol_code in H. rewrite X in H. cbn [option_map fst] in H. congruence.
Qed.
Print Assumptions C10_is_valid_exact_below_2_56.
(** A code [is_valid] accepts although its text is not a symbol code. *)
Theorem C10_is_valid_all_64_bit_refuted :
  exists v, 0 <= v < 2 ^ 64 /\ symbol_code_is_valid v = true /\ ~ code_text (symbol_code_to_string v) /\
    string_to_symbol_code (symbol_code_to_string v) = None.
Proof.
  exists (le_val (str "ABCDEFG") + 2 ^ 56). vm_compute le_val. split; [lia|]. split; [reflexivity|]. split; [|reflexivity].
  intros [L _]. vm_compute in L. lia.
Qed.
Print Assumptions C10_is_valid_all_64_bit_refuted.

Theorem C10_symbol_roundtrip : forall v, 0 <= v < 2 ^ 64 -> symbol_is_valid v = true ->
  0 <= symbol_precision v < 256 /\
  symbol_to_string v = dec (symbol_precision v) ++ str "," ++ symbol_code_to_string (symbol_code_of v) /\
  string_to_symbol (symbol_to_string v) = Some v /\
  symbol_make (symbol_code_of v) (symbol_precision v) = v.
Proof.
  intros v Hv V. unfold symbol_is_valid, symbol_code_of, symbol_precision, symbol_make in *.
  rewrite land255, shr8 in *.
  pose proof (Z.mod_pos_bound v 256 ltac:(lia)) as Mb. pose proof (Z.div_mod v 256 ltac:(lia)) as DM.
  assert (Hc : 0 <= v / 256 < 2 ^ 56) by (split; [apply Z.div_pos; lia|apply Z.div_lt_upper_bound; lia]).
  split; [exact Mb|]. split; [unfold symbol_to_string; now rewrite land255, shr8|].
  split; [|rewrite pack_symbol; lia].
  unfold string_to_symbol, symbol_to_string. rewrite land255, shr8.
  apply is_valid56 in V; auto. destruct V as (l & C & E). rewrite E, code_to_string by auto.
  pose proof (symbol_at_ok true (dec (v mod 256)) 0 l [] (dec_digits (v mod 256) (proj1 Mb)) (dec_nonempty (v mod 256) (proj1 Mb)) C I (or_intror eq_refl)) as H.
  rewrite app_nil_r in H. change (44 :: spaces 0 ++ l) with ([44] ++ l) in H. rewrite H. cbn [option_map fst]. f_equal.
  rewrite (dec_val _ (proj1 Mb)), Z.mod_mod by lia. lia.
Qed.
Print Assumptions C10_symbol_roundtrip.

(** The symbol parser: the precision is only kept modulo 256. *)
Theorem C10_symbol_parser : forall s v,
  string_to_symbol s = Some v <->
    exists ds k l, s = ds ++ str "," ++ repeat 32 k ++ l /\ ds <> [] /\ forallb is_digit ds = true /\ code_text l /\
      0 <= v < 2 ^ 64 /\ symbol_precision v = dval ds mod 256 /\ symbol_code_to_string (symbol_code_of v) = l.
Proof.
  intros s v. unfold string_to_symbol, symbol_precision, symbol_code_of. rewrite land255, shr8. split.
  - destruct (string_to_symbol_at true s) as [[x r]|] eqn:E; [|discriminate]. cbn [option_map fst]. intros H. injection H as ->.
    apply symbol_at_inv in E. destruct E as (ds & k & l & S & F & N & C & V & _ & [R|R]); [discriminate|]. subst r.
    rewrite app_nil_r in S. exists ds, k, l. pose proof (code_text_range l C).
    pose proof (Z.mod_pos_bound (dval ds) 256 ltac:(lia)) as Mb.
    destruct (unpack_symbol (le_val l) (dval ds mod 256) Mb) as [U1 U2]. rewrite V, U1, U2.
    split; [exact S|]. split; [exact N|]. split; [exact F|]. split; [exact C|]. split; [lia|]. split; [reflexivity|]. now apply code_to_string.
  - intros (ds & k & l & -> & N & F & C & R & P & E).
    pose proof (symbol_at_ok true ds k l [] F N C I (or_intror eq_refl)) as H. rewrite app_nil_r in H.
    change (44 :: spaces k ++ l) with (str "," ++ repeat 32 k ++ l) in H. rewrite H. cbn [option_map fst]. f_equal.
    assert (Hc : 0 <= v / 256 < 2 ^ 56) by (split; [apply Z.div_pos; lia|apply Z.div_lt_upper_bound; lia]).
    assert (X : string_to_symbol_code l = Some (v / 256)).
    { apply C10_symbol_code_parser. exists O, l. auto. }
    pose proof (code_at_ok true 0 l [] C I (or_intror eq_refl)) as Y. rewrite app_nil_r in Y.
    change (spaces 0 ++ l) with l in Y. unfold string_to_symbol_code in X. rewrite Y in X. cbn [option_map fst] in X.
    injection X as X. rewrite X, <- P. pose proof (Z.div_mod v 256). lia.
Qed.
Print Assumptions C10_symbol_parser.

(** A symbol made from a text and a precision. *)
Theorem C10_symbol_ctor : forall s p v, 0 <= p < 256 ->
  (symbol_ctor s p = Ok v <->
   forallb is_upper s = true /\ (List.length s <= 7)%nat /\ 0 <= v < 2 ^ 64 /\
   symbol_precision v = p /\ symbol_code_to_string (symbol_code_of v) = s) /\
  (forall w, symbol_ctor s p <> Undef w).
Proof.
  intros s p v P. split.
  - unfold symbol_ctor, symbol_precision, symbol_code_of, symbol_make. rewrite land255, shr8. split.
    + destruct (symbol_code_ctor s) as [c| |] eqn:E; cbn [bind]; try discriminate. intros H.
      apply C10_symbol_code_ctor in E. destruct E as (F & L & R & T). rewrite pack_symbol in H by lia.
      assert (V : v = c * 256 + p) by congruence. clear H. subst v.
      destruct (unpack_symbol c p P) as [U1 U2]. rewrite U1, U2. repeat split; auto; lia.
    + intros (F & L & R & Q & T). assert (C : symbol_code_ctor s = Ok (v / 256)).
      { apply C10_symbol_code_ctor. repeat split; auto; lia. }
      rewrite C. cbn [bind]. f_equal. rewrite pack_symbol by lia. lia.
  - intros w. unfold symbol_ctor. destruct (symbol_code_ctor s) as [c| |w'] eqn:E; cbn [bind]; try discriminate.
    exfalso. revert E. unfold symbol_code_ctor. destruct (Nat.leb (List.length s) 7); [|discriminate]. cbn [check bind].
    generalize 0. induction (rev s) as [|c l IH]; intros z; [discriminate|]. cbn [mfold]. destruct (is_upper c); [|discriminate].
    cbn [check bind]. apply IH.
Qed.
Print Assumptions C10_symbol_ctor.
(** Symbols are ordered by code first, then by precision. *)
Theorem C10_symbol_order : forall a b, 0 <= a < 2 ^ 64 -> 0 <= b < 2 ^ 64 ->
  (symbol_lt a b = true <-> symbol_lt (symbol_code_of a) (symbol_code_of b) = true \/
    (symbol_code_of a = symbol_code_of b /\ symbol_precision a < symbol_precision b)).
Proof.
  intros a b A B. unfold symbol_lt, symbol_code_of, symbol_precision. rewrite !land255, !shr8, !Z.ltb_lt. lia.
Qed.
Print Assumptions C10_symbol_order.
(** The order of the codes is not alphabetical: the last letter counts most. *)
Theorem C10_alphabetical_order_refuted : exists a b,
  symbol_code_ctor (str "AZ") = Ok a /\ symbol_code_ctor (str "BA") = Ok b /\ symbol_lt a b = false /\ symbol_lt b a = true.
Proof. exists 23105, 16706. repeat split; reflexivity. Qed.
Print Assumptions C10_alphabetical_order_refuted.
(** [suffix] reads the code as if it were a name: it has nothing to do with the letters. *)
Theorem C10_suffix_refuted : exists a, symbol_code_ctor (str "A") = Ok a /\ name_to_string (symbol_code_suffix a) = str "41".
Proof. exists 65. split; reflexivity. Qed.
Print Assumptions C10_suffix_refuted.

Example C10_example :
  symbol_code_is_valid (le_val (str "EOS")) = true /\ symbol_to_string (symbol_make (le_val (str "EOS")) 4) = str "4,EOS" /\
  string_to_symbol (str "260,EOS") = Some (symbol_make (le_val (str "EOS")) 4) /\
  symbol_is_valid (symbol_make (le_val (str "EOS")) 255) = true /\
  string_to_symbol_code (str "  EOS") = string_to_symbol_code (str "EOS") /\
  string_to_symbol_code (str "EOSEOSEO") = None /\ string_to_symbol_code (str "EOs") = None /\
  symbol_ctor (str "EOS") 4 = Ok (symbol_make (le_val (str "EOS")) 4).
Proof. vm_compute. auto 10. Qed.

(** ** C11 *)
Theorem C11_asset_text : forall a code p, - 2 ^ 63 < a < 2 ^ 63 -> 0 <= p < 256 -> 0 <= code < 2 ^ 56 ->
  symbol_code_is_valid code = true ->
  let sym := symbol_make code p in
  let frac := if p =? 0 then None else Some (decn (Z.to_nat p) (Z.abs a)) in
  exists t, asset_to_string a sym = Ok t /\
    t = asset_text 0 (a <? 0) (dec (Z.abs a / 10 ^ p)) frac 1 (symbol_code_to_string code) /\
    dval (dec (Z.abs a / 10 ^ p) ++ frac_digits frac) = Z.abs a /\
    List.length (frac_digits frac) = Z.to_nat p /\
    string_to_asset t = Some (a, sym) /\
    asset_from_json_string t = Ok {| amount := a; symbol := sym |}.
Proof.
  intros a code p Ha Hp Hc V sym frac.
  assert (Es : sym = code * 256 + p) by (apply pack_symbol; auto).
  exists (asset_print a sym). split; [now apply asset_to_string_eq|].
  destruct (unpack_symbol code p Hp) as [E1 E2].
  assert (RT : string_to_asset (asset_print a sym) = Some (a, sym)) by (rewrite Es; now apply asset_roundtrip).
  assert (P0 : 0 < 10 ^ p) by (apply Z.pow_pos_nonneg; lia).
  assert (Lf : List.length (frac_digits frac) = Z.to_nat p).
  { unfold frac. destruct (Z.eqb_spec p 0); cbn [frac_digits]; [subst; reflexivity|apply decn_length]. }
  split; [|split; [|split; [exact Lf|split; [exact RT|unfold asset_from_json_string; now rewrite RT]]]].
  - unfold asset_print, asset_text. rewrite Es, E1, E2, Z2Nat.id by lia. cbn [spaces repeat app]. unfold frac.
    destruct (Z.eqb_spec p 0), (Nat.eqb_spec (Z.to_nat p) 0); try lia; reflexivity.
  - rewrite dval_app, Lf, Z2Nat.id, dec_val by (try lia; apply Z.div_pos; lia).
    replace (dval (frac_digits frac)) with (Z.abs a mod 10 ^ p).
    + pose proof (Z.div_mod (Z.abs a) (10 ^ p)). lia.
    + unfold frac. destruct (Z.eqb_spec p 0); cbn [frac_digits].
      * subst. now rewrite Z.mod_1_r.
      * rewrite decn_val, Z2Nat.id by lia. reflexivity.
Qed.
Print Assumptions C11_asset_text.

Theorem C11_int64_min : forall sym, asset_to_string (- 2 ^ 63) sym = Undef "signed overflow".
Proof. reflexivity. Qed.
Print Assumptions C11_int64_min.

(** Printing assets of the same symbol is injective (a corollary used with C11). *)
Example C11_example :
  asset_to_string (-12345) (symbol_make (le_val (str "EOS")) 4) = Ok (str "-1.2345 EOS") /\
  asset_to_string 7 (symbol_make (le_val (str "EOS")) 3) = Ok (str "0.007 EOS") /\
  asset_to_string (2 ^ 63 - 1) (symbol_make (le_val (str "A")) 0) = Ok (str "9223372036854775807 A") /\
  string_to_asset (str "0.007 EOS") = Some (7, symbol_make (le_val (str "EOS")) 3).
Proof. vm_compute. auto. Qed.

(** ** C12: exactly which texts are accepted and what they denote. *)
Theorem C12_asset_parser : forall s a sym,
  string_to_asset s = Some (a, sym) <->
    exists k1 neg ip frac k2 l,
      s = asset_text k1 neg ip frac k2 l /\
      forallb is_digit ip = true /\ forallb is_digit (frac_digits frac) = true /\ code_text l /\
      a = wrap_s 64 (if neg then - dval (ip ++ frac_digits frac) else dval (ip ++ frac_digits frac)) /\
      sym = symbol_make (le_val l) (Z.of_nat (List.length (frac_digits frac)) mod 256).
Proof.
  intros s a sym. unfold string_to_asset.
  assert (K : forall k1 neg ip frac k2 l, forallb is_digit ip = true -> forallb is_digit (frac_digits frac) = true -> code_text l ->
     option_map fst (string_to_asset_at true (asset_text k1 neg ip frac k2 l)) =
     Some (wrap_s 64 (if neg then - dval (ip ++ frac_digits frac) else dval (ip ++ frac_digits frac)),
           symbol_make (le_val l) (Z.of_nat (List.length (frac_digits frac)) mod 256))).
  { intros k1 neg ip frac k2 l Fi Ff C.
    pose proof (asset_at_ok true k1 neg ip frac k2 l [] Fi Ff C I (or_intror eq_refl)) as H.
    rewrite app_nil_r in H. rewrite H. cbn [option_map fst]. unfold symbol_make.
    rewrite pack_symbol; [reflexivity|pose proof (code_text_range l C); lia|apply Z.mod_pos_bound; lia]. }
  split.
  - destruct (string_to_asset_at true s) as [[[a' sym'] r]|] eqn:E; [|discriminate]. intros H. cbn [option_map fst] in H.
    pose proof E as E'. apply asset_at_inv in E. destruct E as (k1 & neg & ip & frac & k2 & l & S & Fi & Ff & C & _ & [R|R]); [discriminate|].
    subst r. rewrite app_nil_r in S. exists k1, neg, ip, frac, k2, l. specialize (K k1 neg ip frac k2 l Fi Ff C).
    rewrite <- S, E' in K. cbn [option_map fst] in K. rewrite H in K.
    split; [exact S|]. split; [exact Fi|]. split; [exact Ff|]. split; [exact C|]. split; congruence.
  - intros (k1 & neg & ip & frac & k2 & l & -> & Fi & Ff & C & -> & ->). now apply K.
Qed.
Print Assumptions C12_asset_parser.

(** Within range the value is exact. *)
Theorem C12_asset_parser_exact : forall k1 neg ip frac k2 l,
  forallb is_digit ip = true -> forallb is_digit (frac_digits frac) = true -> code_text l ->
  dval (ip ++ frac_digits frac) < 2 ^ 63 -> (List.length (frac_digits frac) < 256)%nat ->
  exists a sym, string_to_asset (asset_text k1 neg ip frac k2 l) = Some (a, sym) /\
    a = (if neg then - dval (ip ++ frac_digits frac) else dval (ip ++ frac_digits frac)) /\
    symbol_precision sym = Z.of_nat (List.length (frac_digits frac)) /\
    symbol_code_to_string (symbol_code_of sym) = l.
Proof.
  intros k1 neg ip frac k2 l Fi Ff C Hv Hl. eexists _, _. split.
  { apply C12_asset_parser. exists k1, neg, ip, frac, k2, l. repeat split; auto; apply C. }
  assert (B : 0 <= dval (ip ++ frac_digits frac)) by (apply dval_bound; now rewrite forallb_app, Fi, Ff).
  assert (Hs : Z.of_nat (List.length (frac_digits frac)) mod 256 = Z.of_nat (List.length (frac_digits frac))) by (apply Z.mod_small; lia).
  split; [|split].
  - unfold wrap_s. apply (to_signed_unsigned 64); [lia|]. destruct neg; lia.
  - unfold symbol_precision, symbol_make. rewrite pack_symbol; [|pose proof (code_text_range l C); lia|lia].
    rewrite land255. rewrite Hs. apply unpack_symbol. lia.
  - unfold symbol_code_of, symbol_make. rewrite pack_symbol; [|pose proof (code_text_range l C); lia|lia].
    rewrite shr8, Hs.
    replace ((le_val l * 256 + Z.of_nat (List.length (frac_digits frac))) / 256) with (le_val l)
      by (symmetry; apply unpack_symbol; lia).
    now apply code_to_string.
Qed.
Print Assumptions C12_asset_parser_exact.

(** Outside the range numbers wrap silently. *)
Theorem C12_overflow_detected_refuted :
  string_to_asset (str "18446744073709551617 A") = string_to_asset (str "1 A") /\
  string_to_asset (str "18446744073709551617 A") <> None.
Proof. split; [vm_compute; reflexivity|vm_compute; discriminate]. Qed.
Print Assumptions C12_overflow_detected_refuted.

(** ** C13 *)
Definition in_range (z : Z) : Prop := - 2 ^ 62 < z < 2 ^ 62.
Definition is_int64 (z : Z) : Prop := - 2 ^ 63 <= z < 2 ^ 63.

Lemma fits64 z : fits_s 64 z = true <-> is_int64 z.
Proof. unfold fits_s, is_int64. change (2 ^ (64 - 1)) with (2 ^ 63). lia. Qed.

Theorem C13_add : forall a b r, is_int64 (amount a) -> is_int64 (amount b) ->
  (asset_add Strict a b = Ok r <->
     symbol a = symbol b /\ in_range (amount a + amount b) /\ r = {| amount := amount a + amount b; symbol := symbol a |}) /\
  (in_range (amount a) -> in_range (amount b) ->
     asset_add Wrap a b = asset_add Strict a b /\ forall w, asset_add Strict a b <> Undef w).
Proof.
  intros a b r Ha Hb. unfold asset_add, asset_add_assign, by_value, int64_op, check, in_range, max_amount.
  destruct (Z.eqb_spec (symbol b) (symbol a)); cbn [negb].
  - destruct (fits_s 64 (amount a + amount b)) eqn:F.
    + destruct (Z.leb_spec (- (2 ^ 62 - 1)) (amount a + amount b)); cbn [bind].
      * destruct (Z.leb_spec (amount a + amount b) (2 ^ 62 - 1)); cbn [bind].
        -- split; [|split; [reflexivity|discriminate]]. split; [intros H1; injection H1 as <-; split; [auto|split; [lia|auto]]|]. intros (_ & _ & ->). reflexivity.
        -- split; [|split; [reflexivity|discriminate]]. split; [discriminate|]. lia.
      * split; [|split; [reflexivity|discriminate]]. split; [discriminate|]. lia.
    + assert (~ is_int64 (amount a + amount b)) by (rewrite <- fits64, F; discriminate). unfold is_int64 in *.
      split; [split; [discriminate|lia]|]. lia.
  - split; [split; [discriminate|intros (E & _); congruence]|]. split; [reflexivity|discriminate].
Qed.
Print Assumptions C13_add.

Theorem C13_sub : forall a b r, is_int64 (amount a) -> is_int64 (amount b) ->
  (asset_sub Strict a b = Ok r <->
     symbol a = symbol b /\ in_range (amount a - amount b) /\ r = {| amount := amount a - amount b; symbol := symbol a |}) /\
  (in_range (amount a) -> in_range (amount b) ->
     asset_sub Wrap a b = asset_sub Strict a b /\ forall w, asset_sub Strict a b <> Undef w).
Proof.
  intros a b r Ha Hb. unfold asset_sub, asset_sub_assign, by_value, int64_op, check, in_range, max_amount.
  destruct (Z.eqb_spec (symbol b) (symbol a)); cbn [negb].
  - destruct (fits_s 64 (amount a - amount b)) eqn:F.
    + destruct (Z.leb_spec (- (2 ^ 62 - 1)) (amount a - amount b)); cbn [bind].
      * destruct (Z.leb_spec (amount a - amount b) (2 ^ 62 - 1)); cbn [bind].
        -- split; [|split; [reflexivity|discriminate]]. split; [intros H1; injection H1 as <-; split; [auto|split; [lia|auto]]|]. intros (_ & _ & ->). reflexivity.
        -- split; [|split; [reflexivity|discriminate]]. split; [discriminate|]. lia.
      * split; [|split; [reflexivity|discriminate]]. split; [discriminate|]. lia.
    + assert (~ is_int64 (amount a - amount b)) by (rewrite <- fits64, F; discriminate). unfold is_int64 in *.
      split; [split; [discriminate|lia]|]. lia.
  - split; [split; [discriminate|intros (E & _); congruence]|]. split; [reflexivity|discriminate].
Qed.
Print Assumptions C13_sub.

(** Multiplication is exact or refuses, for any operands, without undefined behaviour. *)
Theorem C13_mul : forall a n r, is_int64 (amount a) -> is_int64 n ->
  (asset_mul a n = Ok r <-> in_range (amount a * n) /\ r = {| amount := amount a * n; symbol := symbol a |}) /\
  (~ in_range (amount a * n) -> exists e, asset_mul a n = Err e).
Proof.
  intros a n r Ha Hn. unfold asset_mul, asset_mul_assign, by_value, in_range, max_amount.
  destruct (Z.leb_spec (amount a * n) (2 ^ 62 - 1)); cbn [negb bind].
  - destruct (Z.leb_spec (- (2 ^ 62 - 1)) (amount a * n)); cbn [negb bind].
    + fold (to_unsigned 64 (amount a * n)). rewrite to_signed_unsigned by lia.
      split; [|intros X; exfalso; apply X; lia]. split; [intros E; injection E as <-; split; [lia|reflexivity]|]. now intros [_ ->].
    + split; [split; [discriminate|lia]|eauto].
  - split; [split; [discriminate|lia]|eauto].
Qed.
Print Assumptions C13_mul.

Lemma quot_abs_le a n : n <> 0 -> Z.abs (Z.quot a n) <= Z.abs a.
Proof.
  intros N. rewrite <- Z.quot_abs by auto. rewrite Z.quot_div_nonneg by lia.
  rewrite <- (Z.div_1_r (Z.abs a)) at 2. apply Z.div_le_compat_l; lia.
Qed.

Theorem C13_div : forall a n, is_int64 (amount a) -> is_int64 n ->
  (n = 0 -> asset_div a n = Err E_divide_by_zero) /\
  (n <> 0 -> in_range (amount a) ->
     exists q, asset_div a n = Ok {| amount := q; symbol := symbol a |} /\ in_range q /\
       exists r, amount a = n * q + r /\ Z.abs r < Z.abs n /\ 0 <= r * amount a).
Proof.
  intros a n Ha Hn. unfold asset_div, asset_div_assign, by_value, in_range. split.
  - intros ->. reflexivity.
  - intros N R. destruct (Z.eqb_spec n 0); [congruence|].
    destruct (Z.eqb_spec (amount a) (- 2 ^ 63)); [lia|]. cbn [andb bind].
    exists (Z.quot (amount a) n). split; [reflexivity|]. split.
    + pose proof (quot_abs_le (amount a) n ltac:(auto)). lia.
    + exists (Z.rem (amount a) n). split; [apply Z.quot_rem'|]. split.
      * apply Z.rem_bound_abs; auto.
      * now apply Z.rem_sign_mul.
Qed.
Print Assumptions C13_div.

(** The unary minus. *)
Theorem C13_neg : forall a, is_int64 (amount a) ->
  (amount a <> - 2 ^ 63 -> forall m, asset_neg m a = Ok {| amount := - amount a; symbol := symbol a |}) /\
  (amount a = - 2 ^ 63 -> asset_neg Strict a = Undef "signed overflow" /\ asset_neg Wrap a = Ok a).
Proof.
  intros a Ha. unfold is_int64 in Ha. unfold asset_neg, int64_op. split.
  - intros N m. assert (F : fits_s 64 (- amount a) = true) by (unfold fits_s; apply andb_true_iff; rewrite Z.leb_le, Z.ltb_lt; change (64 - 1) with 63; lia).
    now rewrite F.
  - intros E. rewrite E. destruct a as [am sy]. cbn [amount symbol] in *. subst am. split; reflexivity.
Qed.
Print Assumptions C13_neg.
Theorem C13_extended_neg : forall m a r, ext_neg m a = Ok r <->
  contract r = contract a /\ asset_neg m (quantity a) = Ok (quantity r).
Proof.
  intros m a r. unfold ext_neg. destruct (asset_neg m (quantity a)) as [q|er|ud]; cbn [bind].
  - split; [intros [= <-]; now split|]. intros (E & [= ->]). destruct r as [q' c']. cbn [quantity contract] in *. now subst.
  - split; [discriminate|intros (_ & [=])].
  - split; [discriminate|intros (_ & [=])].
Qed.
Print Assumptions C13_extended_neg.
(** What the left operand of += and -= is after an exception: the old one when the symbols differ, the wrong sum otherwise. *)
Theorem C13_failed_assign : forall m a b a' e,
  (asset_add_assign m a b = (a', Err e) -> (symbol a <> symbol b /\ a' = a) \/ (symbol a = symbol b /\ symbol a' = symbol a /\ ~ in_range (amount a') /\
     (m = Strict -> amount a' = amount a + amount b))) /\
  (asset_sub_assign m a b = (a', Err e) -> (symbol a <> symbol b /\ a' = a) \/ (symbol a = symbol b /\ symbol a' = symbol a /\ ~ in_range (amount a') /\
     (m = Strict -> amount a' = amount a - amount b))).
Proof.
  intros m a b a' e. unfold asset_add_assign, asset_sub_assign, in_range, int64_op, check, max_amount. remember (2 ^ 62 - 1) as M eqn:EM.
  destruct (Z.eqb_spec (symbol b) (symbol a)) as [E|N]; cbn [negb]; [|split; (intros [= <- _]; left; split; congruence)].
  assert (W : forall (f : bool) (r z : Z) (o : overflow_mode), (if f then Ok r else match o with Strict => Undef "signed overflow" | Wrap => Ok (wrap_s 64 r) end) = Ok z ->
    o = Strict -> z = r) by (intros [] r z [] H; congruence).
  split.
  - intros H. right. split; [congruence|].
    destruct (if fits_s 64 (amount a + amount b) then Ok (amount a + amount b) else match m with Strict => Undef "signed overflow" | Wrap => Ok (wrap_s 64 (amount a + amount b)) end) as [z|er|ud] eqn:Z0.
    + injection H as <- H. cbn [amount symbol]. split; [reflexivity|]. split; [|intros Hm; exact (W _ _ _ m Z0 Hm)].
      destruct (Z.leb_spec (- M) z); cbn [bind] in H; [|lia]. destruct (Z.leb_spec z M); [discriminate H|lia].
    + revert Z0. destruct (fits_s 64 _); [discriminate|destruct m; discriminate].
    + discriminate H.
  - intros H. right. split; [congruence|].
    destruct (if fits_s 64 (amount a - amount b) then Ok (amount a - amount b) else match m with Strict => Undef "signed overflow" | Wrap => Ok (wrap_s 64 (amount a - amount b)) end) as [z|er|ud] eqn:Z0.
    + injection H as <- H. cbn [amount symbol]. split; [reflexivity|]. split; [|intros Hm; exact (W _ _ _ m Z0 Hm)].
      destruct (Z.leb_spec (- M) z); cbn [bind] in H; [|lia]. destruct (Z.leb_spec z M); [discriminate H|lia].
    + revert Z0. destruct (fits_s 64 _); [discriminate|destruct m; discriminate].
    + discriminate H.
Qed.
Print Assumptions C13_failed_assign.

Theorem C13_compare : forall a b,
  (symbol a <> symbol b ->
     forall f, In f [asset_eq; asset_ne; asset_lt; asset_le; asset_gt; asset_ge] ->
       f a b = Err E_compare_symbol_mismatch) /\
  (symbol a = symbol b ->
     asset_eq a b = Ok (amount a =? amount b) /\ asset_ne a b = Ok (negb (amount a =? amount b)) /\
     asset_lt a b = Ok (amount a <? amount b) /\ asset_le a b = Ok (amount a <=? amount b) /\
     asset_gt a b = Ok (amount b <? amount a) /\ asset_ge a b = Ok (amount b <=? amount a)).
Proof.
  intros a b. unfold asset_eq, asset_ne, asset_lt, asset_le, asset_gt, asset_ge, asset_cmp. split.
  - intros N f I. destruct (Z.eqb_spec (symbol a) (symbol b)) as [E|E]; [congruence|].
    apply Z.eqb_neq in E. unfold asset_eq, asset_cmp in I. cbn [In] in I.
    destruct I as [<-|[<-|[<-|[<-|[<-|[<-|[]]]]]]]; cbv beta; rewrite E; reflexivity.
  - intros E. unfold asset_eq, asset_cmp, check. rewrite E, !Z.eqb_refl. cbn [bind]. repeat split; reflexivity.
Qed.
Print Assumptions C13_compare.

Theorem C13_extended_contracts : forall a b, contract a <> contract b ->
  (forall m, ext_add m a b = Err E_type_mismatch) /\ (forall m, ext_sub m a b = Err E_type_mismatch) /\
  ext_lt a b = Err E_type_mismatch /\ ext_le a b = Err E_type_mismatch /\ ext_ge a b = Err E_type_mismatch /\
  forall r, ext_eq a b = Ok r -> r = false.
Proof.
  intros a b N. unfold ext_add, ext_sub, ext_lt, ext_le, ext_ge, ext_eq, same_contract, check.
  apply Z.eqb_neq in N. rewrite N. cbn [bind]. repeat split; auto.
  intros r. destruct (asset_eq (quantity a) (quantity b)) as [q| |]; cbn; try discriminate. destruct q; congruence.
Qed.
Print Assumptions C13_extended_contracts.
Theorem C13_extended_add : forall m a b r, ext_add m a b = Ok r ->
  contract a = contract b /\ contract r = contract a /\ asset_add m (quantity a) (quantity b) = Ok (quantity r).
Proof.
  intros m a b r H. unfold ext_add, same_contract, check in H. destruct (Z.eqb_spec (contract a) (contract b)); [|discriminate].
  cbn [bind] in H. destruct (asset_add m (quantity a) (quantity b)); try discriminate. cbn in H. injection H as <-. auto.
Qed.
Print Assumptions C13_extended_add.

Theorem C13_extended_sub : forall m a b r, ext_sub m a b = Ok r ->
  contract a = contract b /\ contract r = contract a /\ asset_sub m (quantity a) (quantity b) = Ok (quantity r).
Proof.
  intros m a b r H. unfold ext_sub, same_contract, check in H. destruct (Z.eqb_spec (contract a) (contract b)); [|discriminate].
  cbn [bind] in H. destruct (asset_sub m (quantity a) (quantity b)); try discriminate. cbn in H. injection H as <-. auto.
Qed.
Print Assumptions C13_extended_sub.
(** The in place operators of extended assets give what the by-value ones give, and change
    nothing when the contracts differ. *)
Theorem C13_extended_assign : forall m a b,
  (contract a <> contract b -> ext_add_assign m a b = (a, Err E_type_mismatch) /\ ext_sub_assign m a b = (a, Err E_type_mismatch)) /\
  (forall r, ext_add m a b = Ok r <-> ext_add_assign m a b = (r, Ok tt)) /\
  (forall r, ext_sub m a b = Ok r <-> ext_sub_assign m a b = (r, Ok tt)).
Proof.
  intros m a b. unfold ext_add_assign, ext_sub_assign, ext_in_place, ext_add, ext_sub, same_contract, check, asset_add, asset_sub, by_value.
  destruct (Z.eqb_spec (contract a) (contract b)) as [E|E].
  - split; [congruence|]. cbn [bind].
    destruct (asset_add_assign m (quantity a) (quantity b)) as [q o], (asset_sub_assign m (quantity a) (quantity b)) as [q' o'].
    split; intros r; [destruct o as [[]| |]|destruct o' as [[]| |]]; cbn [bind]; (split; intros H; [|]); try discriminate; try congruence;
      (injection H as <- || injection H as H); try reflexivity; now subst.
  - split; [intros _; now split|]. split; intros r; cbn [bind]; (split; intros H; discriminate).
Qed.
Print Assumptions C13_extended_assign.
Theorem C13_extended_compare : forall a b, contract a = contract b ->
  (forall r, ext_lt a b = Ok r <-> asset_lt (quantity a) (quantity b) = Ok r) /\
  (forall r, ext_le a b = Ok r <-> asset_le (quantity a) (quantity b) = Ok r) /\
  (forall r, ext_ge a b = Ok r <-> asset_ge (quantity a) (quantity b) = Ok r) /\
  (forall r, ext_eq a b = Ok r <-> asset_eq (quantity a) (quantity b) = Ok r) /\
  (forall r, ext_ne a b = Ok r <-> asset_ne (quantity a) (quantity b) = Ok r).
Proof.
  intros a b E. unfold ext_lt, ext_le, ext_ge, ext_eq, ext_ne, same_contract, check, ext_eq, asset_ne. rewrite E, Z.eqb_refl. cbn [bind].
  repeat split; auto; destruct (asset_eq (quantity a) (quantity b)) as [[|]| |]; cbn [bind negb]; auto.
Qed.
Print Assumptions C13_extended_compare.

(** The constructor accepts exactly the amounts in range with a symbol whose code is well formed
    (a symbol is its precision and, above it, at most seven letters). *)
Theorem C13_constructor : forall a s r, 0 <= s < 2 ^ 64 ->
  (asset_ctor a s = Ok r <-> r = {| amount := a; symbol := s |} /\ in_range a /\ code_text (symbol_code_to_string (s / 256))).
Proof.
  intros a s r Hs. unfold asset_ctor, check, is_amount_within_range, symbol_is_valid, symbol_code_of, max_amount, in_range. cbn [amount].
  rewrite shr8. assert (Hc : 0 <= s / 256 < 2 ^ 56) by (split; [apply Z.div_pos; lia|apply Z.div_lt_upper_bound; lia]).
  pose proof (C10_is_valid_exact_below_2_56 _ Hc) as V.
  destruct (Z.leb_spec (- (2 ^ 62 - 1)) a); cbn [andb bind]; [|split; [discriminate|intros (_ & ? & _); lia]].
  destruct (Z.leb_spec a (2 ^ 62 - 1)); cbn [bind]; [|split; [discriminate|intros (_ & ? & _); lia]].
  destruct (symbol_code_is_valid (s / 256)) eqn:E; cbn [bind].
  - split; [intros [= <-]; split; [reflexivity|]; split; [lia|now apply V]|intros (-> & _); reflexivity].
  - split; [discriminate|]. intros (_ & _ & C). apply V in C. congruence.
Qed.
Print Assumptions C13_constructor.
(** Reading an asset with [from_string] gives what the text parser of C12 gives, when it is in range. *)
Theorem C13_from_string : forall t r, 
  asset_from_string t = Ok r <-> exists a s, string_to_asset t = Some (a, s) /\ asset_ctor a s = Ok r.
Proof.
  intros t r. unfold asset_from_string. destruct (string_to_asset t) as [[a s]|].
  - split; [intros H; now exists a, s|intros (a' & s' & [= <- <-] & H); exact H].
  - split; [discriminate|intros (? & ? & ? & _); discriminate].
Qed.
Print Assumptions C13_from_string.
(** Every asset obtained from the constructor, from text or by arithmetic on such assets is valid. *)
Theorem C13_validity_is_kept : forall m a b n r, 0 <= symbol a < 2 ^ 64 -> asset_is_valid a = true -> asset_is_valid b = true -> is_int64 n ->
  asset_add m a b = Ok r \/ asset_sub m a b = Ok r \/ asset_mul a n = Ok r \/ asset_div a n = Ok r \/ asset_neg m a = Ok r ->
  asset_is_valid r = true /\ symbol r = symbol a.
Proof.
  intros m a b n r Hs Va Vb Hn H. unfold asset_is_valid in *. apply andb_prop in Va, Vb. destruct Va as [Ra Sa], Vb as [Rb Sb].
  unfold is_amount_within_range, max_amount in *. apply andb_prop in Ra, Rb.
  rewrite !Z.leb_le in Ra, Rb.
  assert (F : forall z, - 2 ^ 63 <= z < 2 ^ 63 -> int64_op m z = Ok z).
  { intros z Hz. unfold int64_op. now rewrite (proj2 (fits64 z) Hz). }
  assert (G : forall z, - (2 ^ 62 - 1) <= z <= 2 ^ 62 - 1 -> r = {| amount := z; symbol := symbol a |} ->
    (- (2 ^ 62 - 1) <=? amount r) && (amount r <=? 2 ^ 62 - 1) && symbol_is_valid (symbol r) = true /\ symbol r = symbol a).
  { intros z Hz ->. cbn [amount symbol]. rewrite (proj2 (Z.leb_le _ _) (proj1 Hz)), (proj2 (Z.leb_le _ _) (proj2 Hz)). now split. }
  destruct H as [H|[H|[H|[H|H]]]].
  - unfold asset_add, by_value, asset_add_assign in H. destruct (negb (symbol b =? symbol a)); [discriminate|].
    rewrite F in H by lia. unfold check, max_amount in H. cbn [bind] in H.
    destruct (Z.leb_spec (- (2 ^ 62 - 1)) (amount a + amount b)); cbn [bind] in H; [|discriminate].
    destruct (Z.leb_spec (amount a + amount b) (2 ^ 62 - 1)); cbn [bind] in H; [|discriminate]. injection H as <-. eapply G; [|reflexivity]. lia.
  - unfold asset_sub, by_value, asset_sub_assign in H. destruct (negb (symbol b =? symbol a)); [discriminate|].
    rewrite F in H by lia. unfold check, max_amount in H. cbn [bind] in H.
    destruct (Z.leb_spec (- (2 ^ 62 - 1)) (amount a - amount b)); cbn [bind] in H; [|discriminate].
    destruct (Z.leb_spec (amount a - amount b) (2 ^ 62 - 1)); cbn [bind] in H; [|discriminate]. injection H as <-. eapply G; [|reflexivity]. lia.
  - assert (Ia : is_int64 (amount a)) by (unfold is_int64; lia). destruct (C13_mul a n r Ia Hn) as [M _]. apply M in H.
    destruct H as [R E]. unfold in_range in R. eapply G; [|exact E]. lia.
  - unfold asset_div, by_value, asset_div_assign in H. destruct (n =? 0) eqn:N; [discriminate|].
    apply Z.eqb_neq in N. destruct ((amount a =? - 2 ^ 63) && (n =? -1)); [discriminate|]. cbn [bind] in H. injection H as <-. eapply G; [|reflexivity].
    pose proof (quot_abs_le (amount a) n N). lia.
  - unfold asset_neg in H. rewrite F in H by lia. cbn [bind] in H. injection H as <-. eapply G; [|reflexivity]. lia.
Qed.
Print Assumptions C13_validity_is_kept.
Theorem C13_set_amount : forall x a, let (x', o) := asset_set_amount x a in
  amount x' = a /\ symbol x' = symbol x /\ (o = Ok tt <-> in_range a) /\ (~ in_range a -> exists e, o = Err e).
Proof.
  intros x a. unfold asset_set_amount, is_amount_within_range, check, in_range, max_amount. cbn [amount symbol].
  split; [reflexivity|]. split; [reflexivity|].
  destruct (Z.leb_spec (- (2 ^ 62 - 1)) a), (Z.leb_spec a (2 ^ 62 - 1)); cbn [andb]; (split; [split; [try discriminate; lia|try reflexivity; lia]|intros; try lia; eauto]).
Qed.
Print Assumptions C13_set_amount.
Theorem C13_extended_constructor : forall a s c r, 0 <= s < 2 ^ 64 ->
  (ext_ctor a s c = Ok r <-> r = {| quantity := {| amount := a; symbol := s |}; contract := c |} /\ in_range a /\ code_text (symbol_code_to_string (s / 256))).
Proof.
  intros a s c r Hs. unfold ext_ctor. pose proof (fun q => C13_constructor a s q Hs) as C.
  destruct (asset_ctor a s) as [q|er|ud] eqn:E; cbn [bind].
  - destruct (proj1 (C q) eq_refl) as (-> & R & T). split; [intros [= <-]; now split|intros (-> & _); reflexivity].
  - split; [discriminate|]. intros (_ & R & T). specialize (C {| amount := a; symbol := s |}). assert (X : Err er = Ok {| amount := a; symbol := s |}) by (apply C; now split). discriminate.
  - split; [discriminate|]. intros (_ & R & T). specialize (C {| amount := a; symbol := s |}). assert (X : Undef ud = Ok {| amount := a; symbol := s |}) by (apply C; now split). discriminate.
Qed.
Print Assumptions C13_extended_constructor.
(** An extended asset prints as the asset, "@" and the name of the contract. *)
Theorem C11_extended_text : forall a t, asset_to_string (amount (quantity a)) (symbol (quantity a)) = Ok t ->
  ext_to_string a = Ok (t ++ str "@" ++ name_to_string (contract a)).
Proof. intros a t H. unfold ext_to_string. now rewrite H. Qed.
Print Assumptions C11_extended_text.
(** Dividing an asset by an asset gives the quotient, rounded towards zero. *)
Theorem C13_ratio : forall a b r, is_int64 (amount a) -> is_int64 (amount b) ->
  (asset_ratio Strict a b = Ok r <->
   symbol a = symbol b /\ amount b <> 0 /\ ~ (amount a = - 2 ^ 63 /\ amount b = -1) /\
   Z.abs (amount a - r * amount b) < Z.abs (amount b) /\ 0 <= (amount a - r * amount b) * amount a).
Proof.
  intros a b r Ha Hb. unfold asset_ratio, check. unfold is_int64 in *.
  destruct (Z.eqb_spec (amount b) 0) as [Z0|NZ]; cbn [negb bind]; [split; [discriminate|intros (_ & ? & _); congruence]|].
  destruct (Z.eqb_spec (symbol a) (symbol b)) as [S|S]; cbn [bind]; [|split; [discriminate|intros (? & _); congruence]].
  assert (Q : amount a = amount b * Z.quot (amount a) (amount b) + Z.rem (amount a) (amount b)) by (apply Z.quot_rem'; exact NZ).
  pose proof (Z.rem_bound_abs (amount a) (amount b) NZ) as RB. pose proof (Z.rem_sign_mul (amount a) (amount b) NZ) as RS.
  assert (U : forall q, Z.abs (amount a - q * amount b) < Z.abs (amount b) -> 0 <= (amount a - q * amount b) * amount a -> q = Z.quot (amount a) (amount b)).
  { intros q B Sg. destruct (Z.eq_dec (amount a) 0) as [A0|A0].
    - rewrite A0 in *. rewrite Z.quot_0_l by exact NZ. destruct (Z.eq_dec q 0); [assumption|]. exfalso. clear - B NZ n. nia.
    - set (qq := Z.quot (amount a) (amount b)) in *. set (rr := Z.rem (amount a) (amount b)) in *. set (ss := amount a - q * amount b) in *.
      assert (P1 : 0 < amount a -> 0 <= rr /\ 0 <= ss) by (clear - RS Sg; clearbody rr ss; nia).
      assert (P2 : amount a < 0 -> rr <= 0 /\ ss <= 0) by (clear - RS Sg; clearbody rr ss; nia).
      assert (D : Z.abs (rr - ss) < Z.abs (amount b)) by (clear - P1 P2 RB B A0; clearbody rr ss; lia).
      assert (DE : (q - qq) * amount b = rr - ss) by (unfold ss; lia).
      destruct (Z.eq_dec (q - qq) 0); [lia|]. exfalso. clear - D DE n NZ. rewrite <- DE, Z.abs_mul in D. nia. }
  unfold int64_op. destruct (fits_s 64 (Z.quot (amount a) (amount b))) eqn:F.
  - apply fits64 in F. unfold is_int64 in F. split.
    + intros [= <-]. split; [exact S|]. split; [exact NZ|]. split.
      * intros [A B]. rewrite A, B in F. vm_compute in F. destruct F as [_ F]. discriminate.
      * replace (amount a - Z.quot (amount a) (amount b) * amount b) with (Z.rem (amount a) (amount b)) by lia. lia.
    + intros (_ & _ & _ & B & Sg). f_equal. symmetry. now apply U.
  - split; [discriminate|]. intros (_ & _ & N & B & Sg). exfalso.
    assert (X : is_int64 (Z.quot (amount a) (amount b))); [|apply fits64 in X; congruence].
    pose proof (quot_abs_le (amount a) (amount b) NZ).
    unfold is_int64. destruct (Z.eq_dec (Z.quot (amount a) (amount b)) (2 ^ 63)) as [X|]; [|lia]. exfalso. apply N.
    assert (amount a = - 2 ^ 63) by lia. split; [assumption|]. rewrite X, H0 in Q. rewrite H0 in RB, RS. clear - Q RB RS Hb. nia.
Qed.
Print Assumptions C13_ratio.

(** What does not hold: the JSON reader accepts assets out of range; adding two of them
    overflows the machine integer (undefined behaviour; with wrap around, a wrong sum is
    accepted), and a failing += leaves the left operand modified. *)
Theorem C13_json_assets_in_range_refuted : exists a,
  asset_from_json_string (str "-9223372036854775808 A") = Ok a /\ ~ in_range (amount a) /\
  asset_add Strict a a = Undef "signed overflow" /\
  asset_add Wrap a a = Ok {| amount := 0; symbol := symbol a |} /\
  asset_from_string (str "-9223372036854775808 A") = Err E_asset_magnitude.
Proof.
  eexists. split; [vm_compute; reflexivity|]. split; [unfold in_range; cbn; lia|]. vm_compute. auto.
Qed.
Print Assumptions C13_json_assets_in_range_refuted.
Theorem C13_failed_add_keeps_operand_refuted : exists a b a' e,
  asset_is_valid a = true /\ asset_is_valid b = true /\ asset_add_assign Strict a b = (a', Err e) /\ a' <> a /\ asset_is_valid a' = false.
Proof.
  exists {| amount := 2 ^ 62 - 1; symbol := symbol_make 65 0 |}, {| amount := 1; symbol := symbol_make 65 0 |}.
  eexists _, _. split; [reflexivity|]. split; [reflexivity|]. split; [vm_compute; reflexivity|]. split; [discriminate|reflexivity].
Qed.
Print Assumptions C13_failed_add_keeps_operand_refuted.
Theorem C13_failed_mul_keeps_operand : forall a n a' e, asset_mul_assign a n = (a', Err e) -> a' = a.
Proof.
  intros a n a' e. unfold asset_mul_assign. destruct (negb _); [congruence|]. destruct (negb _); congruence.
Qed.
Print Assumptions C13_failed_mul_keeps_operand.

Example C13_example : let s := symbol_make (le_val (str "EOS")) 4 in
  asset_add Strict {| amount := 2 ^ 61; symbol := s |} {| amount := 2 ^ 61 - 1; symbol := s |} = Ok {| amount := 2 ^ 62 - 1; symbol := s |} /\
  asset_add Strict {| amount := 2 ^ 61; symbol := s |} {| amount := 2 ^ 61; symbol := s |} = Err E_addition_overflow /\
  asset_mul {| amount := 2 ^ 61; symbol := s |} (-2) = Err E_multiplication_underflow /\
  asset_div {| amount := -7; symbol := s |} 2 = Ok {| amount := -3; symbol := s |}.
Proof. vm_compute. auto. Qed.
