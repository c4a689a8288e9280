(** * C20, C21, C22: integers as JSON text *)
From Verif Require Import Base Decimal JsonInt Base58Facts JsonIntFacts.

Lemma not_minus (A : Type) (c : Z) (x y : A) : c <> 45 -> match c with 45 => x | _ => y end = y.
Proof. intros H. destruct c as [|p|p]; auto. do 7 (try (destruct p as [p|p|]; auto)); congruence. Qed.
Lemma finish_digits sign lim s : 0 <= lim -> forallb is_digit s = true -> s <> [] ->
  finish (rmap (scale sign) (iloop lim 0 false s)) = if dval s <=? lim then Ok (sign * dval s) else Err E_number_out_of_range.
Proof.
  intros Hl H Hn. rewrite iloop_full by (auto; lia). rewrite facc_dval. destruct (dval s <=? lim); [|reflexivity].
  destruct s as [|c s]; [congruence|]. reflexivity.
Qed.
Lemma finish_bad sign lim s : 0 <= lim -> (forallb is_digit s = false \/ s = []) ->
  finish (rmap (scale sign) (iloop lim 0 false s)) = Err E_expected_int \/ finish (rmap (scale sign) (iloop lim 0 false s)) = Err E_number_out_of_range.
Proof.
  intros Hl [H | ->]; [|left; reflexivity]. destruct (iloop_bad lim s 0 false H) as [-> | (v & f & c & r & ->)]; [right; reflexivity|left; reflexivity].
Qed.
Lemma limits sg n : int_size n -> 0 <= - tmin sg n /\ 0 <= tmax sg n.
Proof. intros H. pose proof (pow_half n H). pose proof (pow_full n H). unfold tmin, tmax. destruct sg; lia. Qed.

(** Texts which denote an integer: read exactly, or reported as out of range. *)
Theorem C20_integer_text : forall sg n s v, int_size n -> int_text sg s = Some v ->
  from_json_int sg n s = if (tmin sg n <=? v) && (v <=? tmax sg n) then Ok v else Err E_number_out_of_range.
Proof.
  intros sg n s v Hn H. destruct (limits sg n Hn) as [L1 L2]. rewrite from_json_int_eq by auto. unfold neg_text. unfold int_text in H.
  destruct s as [|c s]; [discriminate|]. destruct (Z.eq_dec c 45) as [->|Hc].
  - destruct sg; [|discriminate]. cbn [andb] in H. destruct (negb (Nat.eqb (List.length s) 0)) eqn:E1; [|discriminate]. cbn [andb] in H.
    destruct (forallb is_digit s) eqn:E2; [|discriminate]. assert (v = - dval s) by congruence. subst v.
    rewrite finish_digits; auto; [|intros ->; discriminate]. pose proof (dval_bound s E2).
    destruct (dval s <=? - tmin true n) eqn:E3, ((tmin true n <=? - dval s) && (- dval s <=? tmax true n)) eqn:E4; try lia; [f_equal; lia|reflexivity].
  - rewrite !not_minus in H by auto. rewrite not_minus by auto.
    destruct (negb (Nat.eqb (List.length (c :: s)) 0) && forallb is_digit (c :: s)) eqn:E1; [|discriminate]. apply andb_prop in E1 as [_ E1].
    assert (v = dval (c :: s)) by congruence. subst v. rewrite finish_digits; auto; [|discriminate]. pose proof (dval_bound (c :: s) E1).
    rewrite Z.mul_1_l. destruct (dval (c :: s) <=? tmax sg n) eqn:E3; destruct (tmin sg n <=? dval (c :: s)) eqn:E4; cbn [andb]; try lia; reflexivity.
Qed.
Print Assumptions C20_integer_text.
(** Anything else is an error (and never undefined behaviour). *)
Theorem C20_other_text : forall sg n s, int_size n -> int_text sg s = None ->
  from_json_int sg n s = Err E_expected_int \/ from_json_int sg n s = Err E_number_out_of_range.
Proof.
  intros sg n s Hn H. destruct (limits sg n Hn) as [L1 L2]. rewrite from_json_int_eq by auto. unfold neg_text. unfold int_text in H.
  destruct s as [|c s]; [left; reflexivity|]. destruct (Z.eq_dec c 45) as [->|Hc].
  - destruct sg.
    + apply finish_bad; auto. cbn [andb] in H. destruct s as [|d s]; [right; reflexivity|left]. cbn [List.length Nat.eqb negb andb] in H. destruct (forallb is_digit (d :: s)); [discriminate|reflexivity].
    + apply finish_bad; auto.
  - rewrite !not_minus in H by auto. rewrite not_minus by auto. apply finish_bad; auto. left. cbn [List.length Nat.eqb negb andb] in H.
    destruct (forallb is_digit (c :: s)); [discriminate|reflexivity].
Qed.
Print Assumptions C20_other_text.
(** The property in one line. *)
Theorem C20_accepts_exactly : forall sg n s v, int_size n ->
  (from_json_int sg n s = Ok v <-> int_text sg s = Some v /\ tmin sg n <= v <= tmax sg n).
Proof.
  intros sg n s v Hn. split.
  - intros H. destruct (int_text sg s) as [w|] eqn:E.
    + rewrite (C20_integer_text sg n s w Hn E) in H. destruct ((tmin sg n <=? w) && (w <=? tmax sg n)) eqn:R; [|discriminate]. assert (w = v) by congruence. subst w. split; [reflexivity|lia].
    + destruct (C20_other_text sg n s Hn E); congruence.
  - intros [H R]. rewrite (C20_integer_text sg n s v Hn H). destruct ((tmin sg n <=? v) && (v <=? tmax sg n)) eqn:R2; [reflexivity|lia].
Qed.
Print Assumptions C20_accepts_exactly.
Theorem C20_defined : forall sg n s w, int_size n -> from_json_int sg n s <> Undef w.
Proof.
  intros sg n s w Hn. destruct (int_text sg s) as [v|] eqn:E.
  - rewrite (C20_integer_text sg n s v Hn E). destruct (_ && _); discriminate.
  - destruct (C20_other_text sg n s Hn E) as [-> | ->]; discriminate.
Qed.
Print Assumptions C20_defined.
Example C20_example :
  from_json_int true 1 (str "-128") = Ok (-128) /\ from_json_int true 1 (str "128") = Err E_number_out_of_range /\
  from_json_int false 2 (str "0065535") = Ok 65535 /\ from_json_int false 4 (str "-1") = Err E_expected_int /\
  from_json_int true 16 (str "-170141183460469231731687303715884105728") = Ok (- 2 ^ 127) /\
  from_json_int true 8 (str "9223372036854775808") = Err E_number_out_of_range /\ from_json_int true 4 (str "1e3") = Err E_expected_int /\ from_json_int true 4 (str "-") = Err E_expected_int.
Proof. vm_compute. repeat split. Qed.

(** ** C21 *)
Definition quoted (q : bool) (s : bytes) : bytes := if q then str """" ++ s ++ str """" else s.
Theorem C21_print : forall sg n v, int_size n -> tmin sg n <= v <= tmax sg n ->
  int_to_json sg n v = Ok (quoted (Nat.ltb 4 n) (int_notation v)).
Proof.
  intros sg n v Hn Hv. pose proof (digits10_enough sg n v Hn Hv) as D. unfold int_to_json. cbv zeta. pose proof (pow_half n Hn). pose proof (pow_full n Hn).
  assert (P2 : 2 ^ tbits n = 2 * 2 ^ (tbits n - 1)) by (rewrite <- Z.pow_succ_r by (pose proof (int_size_pos n Hn); lia); f_equal; lia).
  assert (U : (if v <? 0 then (- (v mod 2 ^ tbits n)) mod 2 ^ tbits n else v mod 2 ^ tbits n) = Z.abs v).
  { destruct (v <? 0) eqn:N.
    - rewrite <- (Z.sub_0_l (v mod _)), Zminus_mod_idemp_r, Z.sub_0_l. rewrite Z.mod_small; [lia|]. unfold tmin in Hv. destruct sg; lia.
    - rewrite Z.mod_small; [lia|]. unfold tmax in Hv. destruct sg; lia. }
  rewrite U. clear U. remember (udigits (S (Z.to_nat (Z.log2 (Z.abs v)))) (Z.abs v)) as u eqn:Eu.
  assert (Ru : rev u = dec (Z.abs v)) by (rewrite Eu; apply udigits_rev).
  assert (Lu : List.length u = List.length (dec (Z.abs v))) by (rewrite <- Ru, rev_length; reflexivity).
  assert (L : (List.length ((if Nat.ltb 4 n then [34] else []) ++ u ++ (if (v <? 0) then [45] else []) ++ (if Nat.ltb 4 n then [34] else []))%Z <= digits10 sg n + 4)%nat).
  { rewrite !app_length, Lu. destruct (Nat.ltb 4 n), (v <? 0); cbn [List.length]; lia. }
  apply Nat.leb_le in L. rewrite L. f_equal. rewrite !rev_app_distr, Ru. unfold quoted, int_notation.
  destruct (v <? 0) eqn:N; [replace (Z.abs v) with (- v) by lia|replace (Z.abs v) with v by lia];
    destruct (Nat.ltb 4 n); cbn [rev app]; change (str """") with [34]; change (str "-") with [45]; cbn [app]; rewrite ?app_nil_r, <- ?app_assoc; reflexivity.
Qed.
Print Assumptions C21_print.
Theorem C21_roundtrip : forall sg n v, int_size n -> tmin sg n <= v <= tmax sg n ->
  from_json_int sg n (int_notation v) = Ok v.
Proof.
  intros sg n v Hn Hv. apply C20_accepts_exactly; auto. split; [|auto].
  assert (Q : forall w, 0 <= w -> forallb is_digit (dec w) = true /\ dval (dec w) = w /\ exists c d, dec w = c :: d).
  { intros w Hw. split; [apply dec_digits; auto|]. split; [apply dec_val; auto|]. destruct (dec w) as [|c d] eqn:E; [|eauto]. exfalso. apply (dec_nonempty w Hw). exact E. }
  unfold int_notation, int_text. destruct (v <? 0) eqn:N.
  - assert (sg = true) as -> by (unfold tmin in Hv; destruct sg; [reflexivity|lia]). change (str "-") with [45]. cbn [app].
    destruct (Q (- v) ltac:(lia)) as (Q1 & Q2 & c & d & E). rewrite Q1, Q2, E. cbn [List.length Nat.eqb negb andb]. f_equal. lia.
  - destruct (Q v ltac:(lia)) as (Q1 & Q2 & c & d & E). rewrite E in *. cbn [forallb] in Q1. apply andb_prop in Q1 as [Qc Q1]. pose proof (proj1 (is_digit_range c) Qc).
    rewrite not_minus by lia. cbn [List.length Nat.eqb negb forallb]. rewrite Qc, Q1. cbn [andb]. rewrite Q2. reflexivity.
Qed.
Print Assumptions C21_roundtrip.
Example C21_example : int_to_json true 8 (- 2 ^ 63) = Ok (str """-9223372036854775808""") /\ int_to_json false 4 4294967295 = Ok (str "4294967295") /\
  int_to_json true 1 (-128) = Ok (str "-128") /\ int_to_json true 8 0 = Ok (str """0""").
Proof. vm_compute. repeat split. Qed.

(** ** C22 *)
Theorem C22_decimal_to_binary : forall size s b,
  decimal_to_binary size s = Ok b <->
  forallb is_digit s = true /\ dval s < 256 ^ Z.of_nat size /\ b = le_bytes size (dval s).
Proof.
  intros size s b. unfold decimal_to_binary. destruct (zeros_ok size) as [Z1 Z2]. destruct (forallb is_digit s) eqn:E.
  - rewrite decimal_loop_ok by auto. rewrite Z2, facc_dval, repeat_length. destruct (dval s <? 256 ^ Z.of_nat size) eqn:R.
    + split; [intros H; assert (b = le_bytes size (dval s)) by congruence; split; [reflexivity|split; [lia|auto]]|intros (_ & _ & ->); reflexivity].
    + split; [discriminate|intros (_ & X & _); lia].
  - split; [|intros (X & _); discriminate]. intros H. destruct (decimal_loop_bad s (repeat 0 size) Z1 E); congruence.
Qed.
Print Assumptions C22_decimal_to_binary.
(** Too large is told from malformed; no other outcome. *)
Theorem C22_decimal_to_binary_errors : forall size s,
  (forallb is_digit s = true -> 256 ^ Z.of_nat size <= dval s -> decimal_to_binary size s = Err E_number_out_of_range) /\
  (forallb is_digit s = false -> decimal_to_binary size s = Err E_expected_int \/ decimal_to_binary size s = Err E_number_out_of_range).
Proof.
  intros size s. unfold decimal_to_binary. destruct (zeros_ok size) as [Z1 Z2]. split.
  - intros H R. rewrite decimal_loop_ok by auto. rewrite Z2, facc_dval, repeat_length. destruct (dval s <? 256 ^ Z.of_nat size) eqn:E; [lia|reflexivity].
  - intros H. apply decimal_loop_bad; auto.
Qed.
Print Assumptions C22_decimal_to_binary_errors.
Theorem C22_binary_to_decimal : forall b, bytes_ok b -> binary_to_decimal b = dec (le_val b).
Proof. exact binary_to_decimal_dec. Qed.
Print Assumptions C22_binary_to_decimal.
Theorem C22_roundtrip : forall size b, bytes_ok b -> List.length b = size -> decimal_to_binary size (binary_to_decimal b) = Ok b.
Proof.
  intros size b Hb Hl. rewrite C22_binary_to_decimal by auto. pose proof (le_val_bound b Hb). rewrite Hl in *.
  apply C22_decimal_to_binary. rewrite dec_val by lia. split; [apply dec_digits; lia|]. split; [lia|]. symmetry. apply le_bytes_le_val; auto.
Qed.
Print Assumptions C22_roundtrip.
(** Two's complement value of a little endian byte array. *)
Definition signed_val (b : bytes) : Z := if 256 ^ Z.of_nat (List.length b) <=? 2 * le_val b then le_val b - 256 ^ Z.of_nat (List.length b) else le_val b.
Theorem C22_twos_complement : forall b, bytes_ok b -> b <> [] ->
  is_negative b = (signed_val b <? 0) /\ bytes_ok (negate b) /\ List.length (negate b) = List.length b /\
  (2 * le_val b <> 256 ^ Z.of_nat (List.length b) -> signed_val (negate b) = - signed_val b).
Proof.
  intros b Hb Hn. destruct (negate_val b Hb) as (N1 & N2 & N3). pose proof (le_val_bound b Hb) as B.
  split; [|split; [auto|split; [auto|]]].
  - rewrite is_negative_val by auto. unfold signed_val. destruct (_ <=? _) eqn:E; [destruct (_ <? 0) eqn:F; [reflexivity|lia]|destruct (_ <? 0) eqn:F; [lia|reflexivity]].
  - intros Hm. unfold signed_val. rewrite N2, N3. remember (256 ^ Z.of_nat (List.length b)) as M.
    destruct (Z.eq_dec (le_val b) 0) as [Z0|Z0].
    + rewrite Z0. cbn [Z.opp]. rewrite Z.mod_0_l by lia. destruct (M <=? 2 * 0) eqn:X; lia.
    + assert (E : (- le_val b) mod M = M - le_val b) by (symmetry; apply (Z.mod_unique_pos _ _ (-1)); lia). rewrite E.
      destruct (M <=? 2 * (M - le_val b)) eqn:X, (M <=? 2 * le_val b) eqn:Y; lia.
Qed.
Print Assumptions C22_twos_complement.
(** The 128 bit types. *)
Theorem C22_uint128 : forall b, bytes_ok b -> List.length b = 16%nat ->
  uint128_to_json b = quoted true (int_notation (le_val b)) /\ uint128_from_json (int_notation (le_val b)) = Ok b.
Proof.
  intros b Hb Hl. unfold uint128_to_json, uint128_from_json, quoted, int_notation. pose proof (le_val_bound b Hb). destruct (le_val b <? 0) eqn:E; [lia|].
  rewrite C22_binary_to_decimal by auto. split; [reflexivity|]. rewrite <- C22_binary_to_decimal by auto. apply C22_roundtrip; auto.
Qed.
Print Assumptions C22_uint128.
Lemma dec_not_minus w : 0 <= w -> exists c d, dec w = c :: d /\ c <> 45.
Proof.
  intros Hw. pose proof (dec_digits w Hw) as D. destruct (dec w) as [|c d] eqn:E; [exfalso; apply (dec_nonempty w Hw); exact E|]. exists c, d. split; [reflexivity|].
  cbn [forallb] in D. apply andb_prop in D as [D _]. apply is_digit_range in D. lia.
Qed.
Theorem C22_int128 : forall b, bytes_ok b -> List.length b = 16%nat ->
  int128_to_json b = quoted true (int_notation (signed_val b)) /\ int128_from_json (int_notation (signed_val b)) = Ok b.
Proof.
  intros b Hb Hl. assert (Hn : b <> []) by (intros ->; discriminate). pose proof (le_val_bound b Hb) as B.
  destruct (C22_twos_complement b Hb Hn) as (T1 & T2 & T3 & _). destruct (negate_val b Hb) as (_ & _ & N3).
  unfold int128_to_json, int128_from_json, int_notation. rewrite T1. unfold signed_val in *. rewrite Hl in *. remember (256 ^ Z.of_nat 16) as M eqn:EM.
  assert (PM : 0 < M) by (rewrite EM; vm_compute; reflexivity).
  destruct (M <=? 2 * le_val b) eqn:E.
  - destruct (le_val b - M <? 0) eqn:F; [|lia].
    assert (EN : le_val (negate b) = M - le_val b) by (rewrite N3; symmetry; apply (Z.mod_unique_pos _ _ (-1)); lia).
    rewrite C22_binary_to_decimal, EN by auto. replace (- (le_val b - M)) with (M - le_val b) by lia. split; [reflexivity|].
    change (str "-" ++ dec (M - le_val b)) with (45 :: dec (M - le_val b)). cbv beta iota.
    assert (D : decimal_to_binary 16 (dec (M - le_val b)) = Ok (negate b)) by (rewrite <- EN, <- C22_binary_to_decimal by auto; apply C22_roundtrip; auto).
    rewrite D. cbn [bind]. destruct (negate_val (negate b) T2) as (K1 & K2 & K3). rewrite T3, <- EM, EN in K3.
    assert (K4 : negate (negate b) = b).
    { apply le_val_inj; auto; [lia|]. rewrite K3. symmetry. apply (Z.mod_unique_pos _ _ (-1)); lia. }
    rewrite K4, T1. rewrite ?E, ?F; reflexivity.
  - destruct (le_val b <? 0) eqn:F; [lia|]. rewrite C22_binary_to_decimal by auto. split; [reflexivity|].
    destruct (dec_not_minus (le_val b) ltac:(lia)) as (c & d & Ed & Hc).
    assert (D : decimal_to_binary 16 (c :: d) = Ok b) by (rewrite <- Ed, <- C22_binary_to_decimal by auto; apply C22_roundtrip; auto).
    rewrite Ed, not_minus by auto. rewrite D. cbn [bind]. rewrite T1. rewrite ?E, ?F; reflexivity.
Qed.
Print Assumptions C22_int128.
(** Exactly what the 128 bit readers accept: unlike the integer reader above, the empty text is zero,
    and "-0" is refused. *)
Theorem C22_uint128_accepts : forall s b, uint128_from_json s = Ok b <-> forallb is_digit s = true /\ dval s < 2 ^ 128 /\ b = le_bytes 16 (dval s).
Proof. intros s b. change (2 ^ 128) with (256 ^ Z.of_nat 16). apply C22_decimal_to_binary. Qed.
Print Assumptions C22_uint128_accepts.
(** The signed reader: what is accepted, and as which number; everything else is an error. *)
Inductive int128_text : bytes -> Z -> Prop :=
| int128_plus s : forallb is_digit s = true -> dval s < 2 ^ 127 -> int128_text s (dval s)
| int128_minus s : forallb is_digit s = true -> 0 < dval s <= 2 ^ 127 -> int128_text (str "-" ++ s) (- dval s).
Theorem C22_int128_accepts : forall s b, int128_from_json s = Ok b <-> exists v, int128_text s v /\ bytes_ok b /\ List.length b = 16%nat /\ signed_val b = v.
Proof.
  assert (P : 256 ^ Z.of_nat 16 = 2 * 2 ^ 127) by reflexivity.
  assert (P0 : 0 < 2 ^ 127) by reflexivity. remember (2 ^ 127) as H eqn:EH. rewrite EH in P at 1.
  assert (Hplus : forall s b, (let* d := decimal_to_binary 16 s in let* _ := check (negb (is_negative d)) E_number_out_of_range in Ok d) = Ok b <->
    forallb is_digit s = true /\ dval s < 2 ^ 127 /\ bytes_ok b /\ List.length b = 16%nat /\ signed_val b = dval s).
  { intros s b. rewrite <- EH in *. split.
    - intros X. destruct (decimal_to_binary 16 s) as [d| |] eqn:E; cbn [bind] in X; try discriminate. apply C22_decimal_to_binary in E as (D & L & ->).
      assert (Q := le_val_le_bytes 16 (dval s) (conj (proj1 (dval_bound s D)) L)). pose proof (le_bytes_ok 16 (dval s)) as OKb. pose proof (le_bytes_length 16 (dval s)) as LN.
      rewrite is_negative_val, LN, P, Q in X; [|exact OKb|intros N; rewrite N in LN; discriminate].
      destruct (2 * H <=? 2 * dval s) eqn:C; cbn [negb check bind] in X; [discriminate|]. assert (b = le_bytes 16 (dval s)) as -> by congruence.
      split; [exact D|]. split; [lia|]. split; [exact OKb|]. split; [exact LN|]. unfold signed_val. now rewrite LN, P, Q, C.
    - intros (D & L & OKb & LN & Sv). assert (E : decimal_to_binary 16 s = Ok b).
      { apply C22_decimal_to_binary. split; [exact D|]. split; [lia|]. unfold signed_val in Sv. pose proof (le_val_bound b OKb) as B. rewrite LN, P in *.
        destruct (2 * H <=? 2 * le_val b) eqn:C; [pose proof (proj1 (dval_bound s D)); lia|]. rewrite <- Sv. symmetry. now apply le_bytes_le_val. }
      rewrite E. cbn [bind]. rewrite is_negative_val by (auto; intros ->; discriminate). rewrite LN, P. unfold signed_val in Sv. rewrite LN, P in Sv.
      pose proof (le_val_bound b OKb) as B. pose proof (proj1 (dval_bound s D)). rewrite LN, P in B. destruct (2 * H <=? 2 * le_val b) eqn:C; [lia|reflexivity]. }
  assert (Hminus : forall s b, (let* d := decimal_to_binary 16 s in let d := negate d in let* _ := check (is_negative d) E_number_out_of_range in Ok d) = Ok b <->
    forallb is_digit s = true /\ 0 < dval s <= 2 ^ 127 /\ bytes_ok b /\ List.length b = 16%nat /\ signed_val b = - dval s).
  { intros s b. rewrite <- EH in *. split.
    - intros X. destruct (decimal_to_binary 16 s) as [d| |] eqn:E; cbn [bind] in X; try discriminate. apply C22_decimal_to_binary in E as (D & L & ->).
      assert (Q := le_val_le_bytes 16 (dval s) (conj (proj1 (dval_bound s D)) L)). pose proof (le_bytes_ok 16 (dval s)) as OKb. pose proof (le_bytes_length 16 (dval s)) as LN.
      destruct (negate_val _ OKb) as (N1 & N2 & N3). rewrite LN in N2. rewrite LN, Q, P in N3. pose proof (proj1 (dval_bound s D)) as NN. rewrite P in L.
      rewrite is_negative_val, N2, P, N3 in X; [|exact N1|intros N; rewrite N in N2; discriminate].
      destruct (2 * H <=? 2 * ((- dval s) mod (2 * H))) eqn:C; cbn [negb check bind] in X; [|discriminate]. assert (b = negate (le_bytes 16 (dval s))) as -> by congruence.
      destruct (Z.eq_dec (dval s) 0) as [Z0|Z0]; [rewrite Z0, Z.mod_0_l in C by lia; lia|].
      assert (M : (- dval s) mod (2 * H) = 2 * H - dval s) by (symmetry; apply (Z.mod_unique_pos _ _ (-1)); lia). rewrite M in *.
      split; [exact D|]. split; [lia|]. split; [exact N1|]. split; [exact N2|]. unfold signed_val. rewrite N2, P, N3, C. lia.
    - intros (D & L & OKb & LN & Sv). destruct (negate_val b OKb) as (N1 & N2 & N3). rewrite LN in N2. unfold signed_val in Sv. pose proof (le_val_bound b OKb) as B. rewrite LN, P in *.
      destruct (2 * H <=? 2 * le_val b) eqn:C; [|lia].
      assert (M : (- le_val b) mod (2 * H) = 2 * H - le_val b) by (symmetry; apply (Z.mod_unique_pos _ _ (-1)); lia).
      assert (E : decimal_to_binary 16 s = Ok (negate b)).
      { apply C22_decimal_to_binary. split; [exact D|]. split; [lia|]. replace (dval s) with (le_val (negate b)) by lia. symmetry. now apply le_bytes_le_val. }
      rewrite E. cbn [bind]. destruct (negate_val _ N1) as (K1 & K2 & K3). rewrite N2, P, N3, M in K3.
      assert (M2 : (- (2 * H - le_val b)) mod (2 * H) = le_val b) by (symmetry; apply (Z.mod_unique_pos _ _ (-1)); lia). rewrite M2 in K3.
      assert (NB : negate (negate b) = b) by (apply le_val_inj; auto; lia).
      rewrite NB, is_negative_val by (auto; intros ->; discriminate). rewrite LN, P, C. reflexivity. }
  intros s b. unfold int128_from_json. destruct (match s with 45 :: _ => true | _ => false end) eqn:E45.
  - destruct s as [|c s]; [discriminate|]. assert (c = 45) as -> by (destruct (Z.eq_dec c 45) as [|NE]; [assumption|]; now rewrite not_minus in E45).
    rewrite Hminus. rewrite <- EH. split.
    + intros (D & L & X). exists (- dval s). split; [apply (int128_minus s); [exact D|now rewrite <- EH]|exact X].
    + intros (v & T & X). inversion T as [s0 D L E1 E2|s0 D L E1 E2].
      * subst s0. cbn [forallb] in D. discriminate D.
      * assert (s0 = s) as -> by congruence. rewrite <- EH in L. subst v. auto.
  - assert (Em : forall (A : Type) (a : bytes -> A) z, match s with 45 :: s' => a s' | _ => z end = z).
    { intros A a z. destruct s as [|c s]; [reflexivity|]. apply not_minus. intros ->. discriminate E45. }
    rewrite Em, Hplus. rewrite <- EH. split.
    + intros (D & L & X). exists (dval s). split; [apply int128_plus; [exact D|now rewrite <- EH]|exact X].
    + intros (v & T & X). inversion T as [s0 D L E1 E2|s0 D L E1 E2].
      * subst s0 v. rewrite <- EH in L. auto.
      * subst s. discriminate E45.
Qed.
Print Assumptions C22_int128_accepts.
Theorem C22_empty_and_minus_zero_refuted :
  uint128_from_json [] = Ok (repeat 0 16) /\ int128_from_json [] = Ok (repeat 0 16) /\ from_json_int false 16 [] = Err E_expected_int /\
  int128_from_json (str "-0") = Err E_number_out_of_range /\ from_json_int true 16 (str "-0") = Ok 0.
Proof. vm_compute. repeat split. Qed.
Print Assumptions C22_empty_and_minus_zero_refuted.
Example C22_example : binary_to_decimal (repeat 255 16) = str "340282366920938463463374607431768211455" /\
  int128_from_json (str "-170141183460469231731687303715884105728") = Ok (repeat 0 15 ++ [128]) /\ int128_from_json (str "-170141183460469231731687303715884105729") = Err E_number_out_of_range /\
  decimal_to_binary 2 (str "65536") = Err E_number_out_of_range.
Proof. vm_compute. repeat split. Qed.
