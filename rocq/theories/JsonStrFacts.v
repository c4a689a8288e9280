(** * Strings and numbers of the JSON reader: completeness and soundness. *)
From Verif Require Import Base Hex Utf8 Json JsonSpec.

Lemma get_digit_hex c v : get_digit c = Some v <-> hexdigit c v.
Proof.
  unfold get_digit, hexdigit.
  destruct ((48 <=? c) && (c <=? 57)) eqn:E1; [split; [intros [= <-]; lia | intros H; f_equal; lia]|].
  destruct ((97 <=? c) && (c <=? 102)) eqn:E2; [split; [intros [= <-]; lia | intros H; f_equal; lia]|].
  destruct ((65 <=? c) && (c <=? 70)) eqn:E3; [split; [intros [= <-]; lia | intros H; f_equal; lia]|].
  split; [discriminate | lia].
Qed.
Lemma hexdigit_range c v : hexdigit c v -> 0 <= v < 16 /\ 48 <= c < 128.
Proof. unfold hexdigit. lia. Qed.

Lemma parse_hex4 u h b : hex4 u h -> parse_hex 4 0 (h ++ b) = Ok (u, b).
Proof.
  intros (a & b' & c & d & va & vb & vc & vd & -> & Ha & Hb & Hc & Hd & ->).
  cbn [app parse_hex].
  rewrite (proj2 (get_digit_hex _ _) Ha), (proj2 (get_digit_hex _ _) Hb),
          (proj2 (get_digit_hex _ _) Hc), (proj2 (get_digit_hex _ _) Hd).
  repeat f_equal.
Qed.
Lemma hex4_range u h : hex4 u h -> 0 <= u < 65536.
Proof.
  intros (a & b' & c & d & va & vb & vc & vd & -> & Ha & Hb & Hc & Hd & ->).
  apply hexdigit_range in Ha, Hb, Hc, Hd. lia.
Qed.
Lemma hex4_length u h : hex4 u h -> List.length h = 4%nat.
Proof. intros (a & b' & c & d & va & vb & vc & vd & -> & _). reflexivity. Qed.
Lemma parse_hex4_inv b u r : parse_hex 4 0 b = Ok (u, r) -> exists h, hex4 u h /\ b = h ++ r.
Proof.
  cbn [parse_hex].
  destruct b as [|a b]; [discriminate|]. destruct (get_digit a) as [va|] eqn:Ea; [|discriminate].
  destruct b as [|b0 b]; [discriminate|]. destruct (get_digit b0) as [vb|] eqn:Eb; [|discriminate].
  destruct b as [|c b]; [discriminate|]. destruct (get_digit c) as [vc|] eqn:Ec; [|discriminate].
  destruct b as [|d b]; [discriminate|]. destruct (get_digit d) as [vd|] eqn:Ed; [|discriminate].
  intros [= <- <-]. exists [a; b0; c; d]. split; [|reflexivity].
  apply get_digit_hex in Ea, Eb, Ec, Ed.
  exists a, b0, c, d, va, vb, vc, vd. repeat (split; [assumption || reflexivity|]). lia.
Qed.

Lemma escape_char_spec e v : escape_char e = Some v <-> short_escape e v.
Proof.
  unfold escape_char, short_escape. cbn [In].
  repeat match goal with |- context [if ?x =? ?y then _ else _] => destruct (Z.eqb_spec x y) as [->|?] end;
  split; intros H;
    try (injection H as <-); try discriminate H;
    try (repeat match goal with H : _ \/ _ |- _ => destruct H end; congruence || (exfalso; congruence));
    auto 10.
  all: repeat match goal with H : _ \/ _ |- _ => destruct H as [[= <- <-]|H] end; congruence || contradiction.
Qed.

Lemma pair_code u1 u2 : 55296 <= u1 < 56320 -> 56320 <= u2 < 57344 ->
  Z.lor (Z.shiftl (u1 - 55296) 10) (u2 - 56320) + 65536 = 65536 + (u1 - 55296) * 1024 + (u2 - 56320).
Proof.
  intros H1 H2. rewrite Z.shiftl_mul_pow2 by lia. change (2 ^ 10) with 1024.
  set (a := u1 - 55296). set (b := u2 - 56320). assert (0 <= a < 1024) by lia. assert (0 <= b < 1024) by lia.
  enough (Z.lor (a * 1024) b = a * 1024 + b) by lia.
  rewrite <- Z.lxor_lor, <- Z.add_nocarry_lxor; try reflexivity.
  all: apply Z.bits_inj'; intros n Hn; rewrite Z.land_spec, Z.bits_0.
  all: destruct (Z.ltb_spec n 10) as [L|L].
  1,3: change 1024 with (2^10); rewrite Z.mul_pow2_bits_low by lia; reflexivity.
  all: replace (Z.testbit b n) with false; [apply andb_false_r|].
  all: symmetry; destruct (Z.eq_dec b 0) as [->|Hz]; [apply Z.bits_0|].
  all: apply Z.bits_above_log2; [lia|].
  all: apply Z.lt_le_trans with 10; [|lia]; apply Z.log2_lt_pow2; [lia|]; change (2^10) with 1024; lia.
Qed.

Lemma utf8_enc_hd cp : 0 <= cp < 1114112 -> exists c r, utf8_enc cp = c :: r /\ (cp < 128 -> c = cp /\ r = []) /\ (128 <= cp -> 192 <= c < 256).
Proof.
  intros H. unfold utf8_enc. destruct (Z.ltb_spec cp 128); [do 2 eexists; split; [reflexivity|]; split; intros; [auto|lia]|].
  destruct (Z.ltb_spec cp 2048); [do 2 eexists; split; [reflexivity|]; lia|].
  destruct (Z.ltb_spec cp 65536); do 2 eexists; (split; [reflexivity|]); lia.
Qed.

Lemma firstn_app_all {A} (a b : list A) : firstn (List.length a) (a ++ b) = a.
Proof. rewrite firstn_app, Nat.sub_diag, firstn_all, firstn_O, app_nil_r. reflexivity. Qed.
Lemma skipn_app_all {A} (a b : list A) : skipn (List.length a) (a ++ b) = b.
Proof. rewrite skipn_app, Nat.sub_diag, skipn_all. reflexivity. Qed.

Lemma parse_string_complete lax s t : string_text lax s t ->
  forall fuel rest, (List.length t < fuel)%nat -> parse_string fuel (t ++ 34 :: rest) = Ok (s, rest).
Proof.
  induction 1 as [|cp s t Hsc H32 H34 H92 Hst IH|e v s t He Hst IH|u h s t Hh Hu Hst IH
                 |u1 u2 h1 h2 s t Hh1 Hh2 Hu1 Hu2 Hst IH|u h s t Hlax Hh Hu Hst IH]; intros fuel rest Hf.
  - destruct fuel; [cbn in Hf; lia|]. reflexivity.
  - destruct fuel; [lia|]. rewrite <- app_assoc.
    assert (Hv := validate_complete cp (t ++ 34 :: rest) Hsc).
    destruct (utf8_enc_hd cp) as (c & r & E & E1 & E2); [unfold scalar in *; lia|].
    rewrite app_length in Hf. pose proof (utf8_enc_length cp).
    pose proof (firstn_app_all (utf8_enc cp) (t ++ 34 :: rest)) as F1.
    pose proof (skipn_app_all (utf8_enc cp) (t ++ 34 :: rest)) as F2.
    rewrite E in Hv, F1, F2. rewrite E.
    cbn [parse_string app] in *.
    assert (X1 : (c =? 92) = false) by lia. rewrite X1.
    assert (X2 : (c =? 34) = false) by lia. rewrite X2.
    assert (X3 : (c <? 32) = false) by lia. rewrite X3.
    rewrite Hv, F1, F2. rewrite E in *. rewrite IH by lia. reflexivity.
  - cbn [List.length] in Hf. destruct fuel; [lia|]. cbn [app parse_string]. rewrite Z.eqb_refl.
    rewrite (proj2 (escape_char_spec _ _) He), IH by lia. reflexivity.
  - cbn [List.length] in Hf. rewrite app_length, (hex4_length _ _ Hh) in Hf.
    destruct fuel; [lia|]. cbn [app parse_string]. rewrite Z.eqb_refl.
    change (escape_char 117) with (@None Z). change (117 =? 117) with true. cbv iota.
    rewrite <- app_assoc, (parse_hex4 _ _ _ Hh). cbn [bind].
    assert (X : (55296 <=? u) && (u <=? 56319) = false) by (unfold scalar in *; lia). rewrite X.
    rewrite IH by lia. cbn [bind]. rewrite encode_eq; [reflexivity|unfold scalar in *; lia].
  - cbn [List.length] in Hf. rewrite app_length, (hex4_length _ _ Hh1) in Hf. cbn [List.length] in Hf. rewrite app_length in Hf.
    destruct fuel; [lia|]. cbn [app parse_string]. rewrite Z.eqb_refl.
    change (escape_char 117) with (@None Z). change (117 =? 117) with true. cbv iota.
    rewrite <- app_assoc, (parse_hex4 _ _ _ Hh1). cbn [bind].
    assert (X : (55296 <=? u1) && (u1 <=? 56319) = true) by lia. rewrite X.
    cbn [app]. rewrite <- app_assoc, (parse_hex4 _ _ _ Hh2). cbn [bind].
    assert (Y : (u2 <? 56320) || (57343 <? u2) = false) by lia. rewrite Y.
    rewrite IH by lia. cbn [bind]. rewrite pair_code by lia. rewrite encode_eq; [reflexivity|lia].
  - cbn [List.length] in Hf. rewrite app_length, (hex4_length _ _ Hh) in Hf.
    destruct fuel; [lia|]. cbn [app parse_string]. rewrite Z.eqb_refl.
    change (escape_char 117) with (@None Z). change (117 =? 117) with true. cbv iota.
    rewrite <- app_assoc, (parse_hex4 _ _ _ Hh). cbn [bind].
    assert (X : (55296 <=? u) && (u <=? 56319) = false) by lia. rewrite X.
    rewrite IH by lia. cbn [bind]. rewrite encode_eq; [reflexivity|lia].
Qed.

Lemma match_bs_u (b3 : bytes) {A} (f : bytes -> A) (d : A) :
  match b3 with 92 :: 117 :: b4 => f b4 | _ => d end =
  match b3 with x :: y :: b4 => if (x =? 92) && (y =? 117) then f b4 else d | _ => d end.
Proof.
  destruct b3 as [|x b3]; [reflexivity|].
  destruct b3 as [|y b3].
  { destruct x as [|p|p]; auto. do 7 (try (destruct p as [p|p|]; auto)). }
  destruct (Z.eqb_spec x 92) as [->|Hx].
  - destruct (Z.eqb_spec y 117) as [->|Hy]; [reflexivity|]. cbn [andb].
    destruct y as [|p|p]; auto. do 7 (try (destruct p as [p|p|]; auto)); congruence.
  - cbn [andb]. destruct x as [|p|p]; auto. do 7 (try (destruct p as [p|p|]; auto)); congruence.
Qed.

Lemma parse_string_sound fuel : forall b s r, bytes_ok b -> parse_string fuel b = Ok (s, r) ->
  exists t, b = t ++ 34 :: r /\ string_text true s t.
Proof.
  induction fuel as [|fuel IH]; intros b s r Hb H; [discriminate|].
  cbn [parse_string] in H. destruct b as [|c b1]; [discriminate|].
  inversion Hb as [|? ? Hc Hb1]; subst. unfold is_byte in Hc.
  destruct (Z.eqb_spec c 92) as [->|N92].
  - destruct b1 as [|e b2]; [discriminate|]. inversion Hb1 as [|? ? He Hb2]; subst.
    destruct (escape_char e) as [x|] eqn:Ee.
    + apply bind_Ok in H as ((s' & r') & H1 & [= <- <-]).
      apply IH in H1 as (t & -> & Ht); auto. exists (92 :: e :: t). split; [reflexivity|].
      constructor; auto. apply escape_char_spec; auto.
    + destruct (Z.eqb_spec e 117) as [->|]; [|discriminate].
      apply bind_Ok in H as ((cp & b3) & H1 & H).
      apply parse_hex4_inv in H1 as (h & Hh & ->).
      apply bytes_ok_app in Hb2 as [_ Hb3]. pose proof (hex4_range _ _ Hh) as Rg1.
      destruct ((55296 <=? cp) && (cp <=? 56319)) eqn:Ehi.
      * rewrite match_bs_u in H.
        destruct b3 as [|x [|y b4]]; try discriminate.
        destruct ((x =? 92) && (y =? 117)) eqn:Exy; [|discriminate].
        assert (x = 92 /\ y = 117) as [-> ->] by lia. clear Exy.
        apply bind_Ok in H as ((cp2 & b5) & H1 & H).
        apply parse_hex4_inv in H1 as (h2 & Hh2 & ->). pose proof (hex4_range _ _ Hh2) as Rg2.
        destruct ((cp2 <? 56320) || (57343 <? cp2)) eqn:Elo; [discriminate|].
        apply bind_Ok in H as ((s' & r') & H1 & H).
        assert (Es : utf8_encode (Z.lor (Z.shiftl (cp - 55296) 10) (cp2 - 56320) + 65536) ++ s' = s) by congruence.
        assert (r' = r) by congruence. subst s r'. clear H.
        assert (bytes_ok b5).
        { inversion Hb3 as [|? ? _ Hb4]; subst. inversion Hb4 as [|? ? _ Hb5]; subst. apply bytes_ok_app in Hb5; tauto. }
        apply IH in H1 as (t & -> & Ht); auto.
        exists (92 :: 117 :: h ++ 92 :: 117 :: h2 ++ t). split; [cbn [app]; rewrite <- !app_assoc; cbn [app]; rewrite <- app_assoc; reflexivity|].
        rewrite pair_code by lia. rewrite encode_eq by lia. apply St_pair; auto; lia.
      * apply bind_Ok in H as ((s' & r') & H1 & H).
        assert (Es : utf8_encode cp ++ s' = s) by congruence.
        assert (r' = r) by congruence. subst s r'. clear H.
        apply IH in H1 as (t & -> & Ht); auto.
        exists (92 :: 117 :: h ++ t). split; [cbn [app]; rewrite <- app_assoc; reflexivity|].
        rewrite encode_eq by lia.
        destruct ((56320 <=? cp) && (cp <? 57344)) eqn:El.
        -- apply St_lone; auto; lia.
        -- apply St_unit; auto. unfold scalar. lia.
  - destruct (Z.eqb_spec c 34) as [->|N34].
    + injection H as <- <-. exists []. split; [reflexivity|constructor].
    + destruct (Z.ltb_spec c 32) as [|G32]; [discriminate|].
      destruct (utf8_validate (c :: b1)) as [n|] eqn:Ev; [|discriminate].
      apply validate_sound in Ev as (cp & r0 & Hsc & E & ->); auto; [|discriminate].
      rewrite E, firstn_app_all, skipn_app_all in H.
      apply bind_Ok in H as ((s' & r') & H1 & H). injection H as <- <-.
      assert (bytes_ok r0) by (rewrite E in Hb; apply bytes_ok_app in Hb; tauto).
      apply IH in H1 as (t & -> & Ht); auto.
      rewrite E. exists (utf8_enc cp ++ t). split; [rewrite <- app_assoc; reflexivity|].
      destruct (utf8_enc_hd cp) as (c' & r'' & Ec & E1 & E2); [unfold scalar in *; lia|].
      rewrite Ec in E. cbn [app] in E. injection E as -> _.
      apply St_char; auto; lia.
Qed.

(** ** Numbers *)
Lemma is_dig_spec c : is_dig c = true <-> 48 <= c <= 57.
Proof. unfold is_dig. lia. Qed.
Lemma span_digits_spec b d r : span_digits b = (d, r) ->
  b = d ++ r /\ digits d /\ (forall c r', r = c :: r' -> is_dig c = false).
Proof.
  revert d r; induction b as [|c b IH]; intros d r; cbn [span_digits].
  - intros [= <- <-]. repeat split; [constructor|discriminate].
  - destruct (is_dig c) eqn:E.
    + destruct (span_digits b) as [d' r'] eqn:E'. intros [= <- <-].
      destruct (IH _ _ eq_refl) as (-> & Hd & Hr). repeat split; auto.
      constructor; auto. apply is_dig_spec; auto.
    + intros [= <- <-]. repeat split; [constructor|]. intros c' r' [= -> ->]. auto.
Qed.
Definition nodig (r : bytes) : Prop := forall c r', r = c :: r' -> is_dig c = false.
Lemma span_digits_app d r : digits d -> nodig r -> span_digits (d ++ r) = (d, r).
Proof.
  intros Hd Hr. induction Hd as [|c d Hc Hd IH]; cbn [app span_digits].
  - destruct r as [|c r]; [reflexivity|]. cbn [span_digits]. rewrite (Hr c r eq_refl). reflexivity.
  - rewrite (proj2 (is_dig_spec c)) by lia. rewrite IH. reflexivity.
Qed.
(** What may follow a number: nothing that could continue it. *)
Definition numend (r : bytes) : Prop :=
  forall c r', r = c :: r' -> is_dig c = false /\ c <> 46 /\ c <> 101 /\ c <> 69.
Lemma numend_nodig r : numend r -> nodig r.
Proof. intros H c r' E. apply (H c r' E). Qed.

Lemma digits_val_small c : 48 <= c <= 57 -> digits_val [c] <= 9.
Proof. unfold digits_val. cbn [fold_left]. lia. Qed.

Lemma counted_from_true n d : counted_from true n d = Z.min (Z.of_nat (List.length d)) (Z.max 0 (17 - n)).
Proof.
  revert n; induction d as [|c d IH]; intros n; cbn [counted_from List.length orb]; [lia|].
  destruct (Z.ltb_spec n 17); [|lia]. rewrite IH. lia.
Qed.
Lemma counted_from_false d :
  counted_from false 0 d = Z.min (Z.of_nat (List.length d)) (Z.of_nat (leading_zeros d) + 17).
Proof.
  induction d as [|c d IH]; [reflexivity|]. cbn [counted_from List.length orb leading_zeros].
  assert (T : 0 <? 17 = true) by reflexivity. rewrite T.
  destruct (c =? 48); cbn [negb].
  - rewrite IH. lia.
  - rewrite counted_from_true. lia.
Qed.
Lemma exp_frac_kept i d : i <> [] -> exp_frac i d = kept_digits i d.
Proof.
  intros N. unfold exp_frac, kept_digits. destruct (beq i [48]) eqn:B; cbn [negb].
  - apply beq_eq in B as ->. cbn [tl List.length]. apply counted_from_false.
  - rewrite counted_from_true. destruct i as [|c i]; [congruence|]. cbn [tl List.length]. lia.
Qed.
Lemma kept_digits_pos i d : 0 <= kept_digits i d.
Proof. unfold kept_digits. destruct (beq i [48]); lia. Qed.
Lemma int_part_ne i : int_part i -> i <> [].
Proof. intros [->|(c & d & -> & _)]; discriminate. Qed.

Lemma parse_number_complete t r : number_fits t -> numend r -> parse_number (t ++ r) = Ok (t, r).
Proof.
  intros (m & i & f & e & (-> & Hm & Hi & Hf & He) & Hfit) Hr.
  assert (Pe : parse_exp_part (exp_frac i (tl f)) (e ++ r) = Ok (e, r)).
  { rewrite (exp_frac_kept i (tl f) (int_part_ne i Hi)). destruct He as [->|(ec & sg & d & -> & Hec & Hsg & Hd & Hdd)].
    - cbn [app]. unfold parse_exp_part. destruct r as [|c r]; [reflexivity|].
      destruct (Hr c r eq_refl) as (_ & _ & N1 & N2).
      assert (X : (c =? 101) || (c =? 69) = false) by lia. rewrite X. reflexivity.
    - cbn [app]. unfold parse_exp_part.
      assert (X : (ec =? 101) || (ec =? 69) = true) by lia. rewrite X.
      rewrite <- app_assoc.
      assert (S : take_opt [43; 45] (sg ++ d ++ r) = (sg, d ++ r)).
      { destruct Hsg as [->|[->| ->]]; try reflexivity. cbn [app].
        destruct d as [|c d]; [congruence|]. inversion Hdd; subst. cbn [app].
        unfold take_opt. cbn [existsb].
        assert (Y : (c =? 43) || ((c =? 45) || false) = false) by lia. rewrite Y. reflexivity. }
      rewrite S. rewrite span_digits_app by auto using numend_nodig.
      destruct d as [|c d]; [congruence|].
      assert (Z : negb (beq sg [45]) && (308 + kept_digits i (tl f) <? digits_val (c :: d)) = false).
      { destruct (beq sg [45]) eqn:B; [reflexivity|]. apply beq_neq in B. cbn [negb andb].
        specialize (Hfit ec sg (c :: d) eq_refl Hsg Hdd B). lia. }
      rewrite Z. reflexivity. }
  assert (Hef : nodig (e ++ r) /\ (forall c r', e ++ r = c :: r' -> c <> 46)).
  { destruct He as [->|(ec & sg & d & -> & Hec & _)].
    - cbn [app]. split; [auto using numend_nodig|]. intros c r' E; apply (Hr c r' E).
    - split; intros c r'; cbn [app]; intros [= <- <-]; [unfold is_dig|]; lia. }
  assert (Pf : parse_frac_part (f ++ e ++ r) = Ok (f, e ++ r)).
  { destruct Hf as [->|(d & -> & Hd & Hdd)].
    - cbn [app]. unfold parse_frac_part. destruct (e ++ r) as [|c x] eqn:E; [reflexivity|].
      destruct (Z.eqb_spec c 46) as [->|]; [|reflexivity]. exfalso. eapply (proj2 Hef); eauto.
    - cbn [app]. unfold parse_frac_part. rewrite Z.eqb_refl.
      rewrite span_digits_app by (tauto). destruct d; [congruence|reflexivity]. }
  assert (Hf2 : nodig (f ++ e ++ r)).
  { destruct Hf as [->|(d & -> & Hd & Hdd)]; [tauto|]. intros c r'; cbn [app]; intros [= <- <-]. reflexivity. }
  assert (Pi : parse_int_part (i ++ f ++ e ++ r) = Ok (i, f ++ e ++ r)).
  { destruct Hi as [->|(c & d & -> & Hc & Hd)]; [reflexivity|]. cbn [app]. unfold parse_int_part.
    destruct (Z.eqb_spec c 48); [lia|]. rewrite (proj2 (is_dig_spec c)) by lia.
    change (c :: d ++ f ++ e ++ r) with ((c :: d) ++ f ++ e ++ r). rewrite span_digits_app; auto.
    constructor; auto; lia. }
  unfold parse_number. rewrite <- !app_assoc.
  assert (M : take_opt [45] (m ++ i ++ f ++ e ++ r) = (m, i ++ f ++ e ++ r)).
  { destruct Hm as [->| ->]; [|reflexivity]. cbn [app].
    destruct Hi as [->|(c & d & -> & Hc & Hd)]; [reflexivity|]. cbn [app].
    unfold take_opt. cbn [existsb]. destruct (Z.eqb_spec c 45); [lia|reflexivity]. }
  rewrite M, Pi. cbn [bind]. rewrite Pf. cbn [bind]. rewrite Pe. reflexivity.
Qed.

Lemma digits_app_inv a b : digits (a ++ b) <-> digits a /\ digits b.
Proof. apply Forall_app. Qed.
Lemma sign_unique sg d sg' d' :
  (sg = [] \/ sg = [43] \/ sg = [45]) -> (sg' = [] \/ sg' = [43] \/ sg' = [45]) ->
  digits d -> digits d' -> sg ++ d = sg' ++ d' -> sg = sg' /\ d = d'.
Proof.
  intros H H' D D'. destruct H as [->|[->| ->]], H' as [->|[->| ->]]; cbn [app]; intros E;
    try (split; congruence); subst; exfalso.
  all: repeat match goal with H : digits (_ :: _) |- _ => inversion H; clear H; subst end; try lia.
  all: congruence.
Qed.

Lemma parse_number_sound b t r : parse_number b = Ok (t, r) -> b = t ++ r /\ number_fits t /\ t <> [].
Proof.
  unfold parse_number.
  destruct (take_opt [45] b) as [m b1] eqn:Hs0.
  assert (Hs : b = m ++ b1 /\ (m = [] \/ m = [45])).
  { unfold take_opt in Hs0. destruct b as [|c b']; [injection Hs0 as <- <-; auto|]. cbn [existsb] in Hs0.
    destruct (Z.eqb_spec c 45) as [->|]; cbn [orb] in Hs0; injection Hs0 as <- <-; auto. }
  destruct Hs as [-> Hm]. clear Hs0.
  intros H. apply bind_Ok in H as ((i & b2) & H1 & H). apply bind_Ok in H as ((f & b3) & H2 & H).
  apply bind_Ok in H as ((e & b4) & H3 & H). injection H as <- <-.
  assert (I : b1 = i ++ b2 /\ int_part i).
  { unfold parse_int_part in H1. destruct b1 as [|c b1]; [discriminate|].
    destruct (Z.eqb_spec c 48) as [->|]; [injection H1 as <- <-; split; [reflexivity|left; reflexivity]|].
    destruct (is_dig c) eqn:Ec; [|discriminate].
    assert (H1' : span_digits (c :: b1) = (i, b2)) by congruence.
    pose proof H1' as H1''. cbn [span_digits] in H1''. rewrite Ec in H1''.
    destruct (span_digits b1) as [d r'] eqn:E'. injection H1'' as <- <-.
    apply span_digits_spec in H1' as (E1 & D & _). split; [exact E1|]. right.
    apply is_dig_spec in Ec. inversion D; subst. exists c, d. repeat split; auto; lia. }
  assert (F : b2 = f ++ b3 /\ frac_part f).
  { unfold parse_frac_part in H2. destruct b2 as [|c b2]; [injection H2 as <- <-; split; [reflexivity|left; reflexivity]|].
    destruct (Z.eqb_spec c 46) as [->|]; [|injection H2 as <- <-; split; [reflexivity|left; reflexivity]].
    destruct (span_digits b2) as [d r'] eqn:E'. destruct d as [|d0 d]; [discriminate|].
    injection H2 as <- <-. apply span_digits_spec in E' as (-> & D & _). split; [reflexivity|].
    right. exists (d0 :: d). repeat split; auto. discriminate. }
  assert (X : b3 = e ++ b4 /\ exp_part e /\ exponent_fits i f e).
  { rewrite (exp_frac_kept i (tl f) (int_part_ne i (proj2 I))) in H3. unfold parse_exp_part in H3. destruct b3 as [|c b3]; [injection H3 as <- <-; split; [reflexivity|split; [left; reflexivity|intros ? ? ?; discriminate]]|].
    destruct ((c =? 101) || (c =? 69)) eqn:Ec; [|injection H3 as <- <-; split; [reflexivity|split; [left; reflexivity|intros ? ? ?; discriminate]]].
    destruct (take_opt [43; 45] b3) as [sg b5] eqn:Hs0.
    assert (Hs : b3 = sg ++ b5 /\ (sg = [] \/ sg = [43] \/ sg = [45])).
    { unfold take_opt in Hs0. destruct b3 as [|s b3]; [injection Hs0 as <- <-; auto|]. cbn [existsb] in Hs0.
      destruct ((s =? 43) || ((s =? 45) || false)) eqn:Es; injection Hs0 as <- <-; auto.
      cbn [fst snd app]. split; auto. assert (s = 43 \/ s = 45) as [->| ->] by lia; auto. }
    destruct Hs as [-> Hsg].
    destruct (span_digits b5) as [d r'] eqn:E'. destruct d as [|d0 d]; [discriminate|].
    destruct (negb (beq sg [45]) && (308 + kept_digits i (tl f) <? digits_val (d0 :: d))) eqn:Big; [discriminate|].
    injection H3 as <- <-. apply span_digits_spec in E' as (-> & D & _).
    split; [cbn [app]; rewrite <- !app_assoc; reflexivity|]. split.
    - right. exists c, sg, (d0 :: d). repeat split; auto; [lia|discriminate].
    - intros c' sg' d' Ee Hsg' D' Hn. injection Ee as <- Ee.
      apply sign_unique in Ee as [<- <-]; auto. destruct (beq sg [45]) eqn:B; [apply beq_eq in B; congruence|].
      cbn [negb andb] in Big. lia. }
  destruct I as [-> I], F as [-> F], X as (-> & X & Y).
  split; [rewrite <- !app_assoc; reflexivity|]. split.
  - exists m, i, f, e. split; [repeat split; auto|auto].
  - destruct I as [->|(c & d & -> & _)]; destruct m; discriminate.
Qed.
