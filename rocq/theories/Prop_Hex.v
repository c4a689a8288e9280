(** * Property C17: hexadecimal text. Model and specification: Hex.v. *)
From Verif Require Import Base Hex.

Lemma two_step {A} (P : list A -> Prop) : P [] -> (forall a, P [a]) -> (forall a b l, P l -> P (a :: b :: l)) -> forall l, P l.
Proof.
  intros H0 H1 H2. assert (G : forall l, P l /\ forall a, P (a :: l)).
  { induction l as [|x l [IH1 IH2]]; split; auto. } intros l. apply G.
Qed.
Lemma get_digit_spec c : get_digit c = if is_hex_digit c then Some (digit_value c) else None.
Proof.
  unfold get_digit, is_hex_digit, digit_value.
  destruct (48 <=? c) eqn:A1, (c <=? 57) eqn:A2, (65 <=? c) eqn:A3, (c <=? 70) eqn:A4, (97 <=? c) eqn:A5, (c <=? 102) eqn:A6; cbn [andb orb]; try lia; try reflexivity; f_equal; lia.
Qed.
Lemma digit_value_range c : is_hex_digit c = true -> 0 <= digit_value c < 16.
Proof. unfold is_hex_digit, digit_value. destruct (c <=? 57) eqn:?, (c <=? 70) eqn:?; lia. Qed.
Lemma nibble_digit : forall i, 0 <= i < 16 -> upper_hex_digit (nibble i) = true /\ is_hex_digit (nibble i) = true /\ digit_value (nibble i) = i.
Proof. intros i H. unfold nibble, upper_hex_digit, is_hex_digit, digit_value. destruct (Z.leb_spec i 9); [destruct (48 + i <=? 57) eqn:?|destruct (65 + i - 10 <=? 57) eqn:?, (65 + i - 10 <=? 70) eqn:?]; lia. Qed.
Lemma lor_nibbles h l : 0 <= h < 16 -> 0 <= l < 16 -> Z.lor (Z.shiftl h 4) l = 16 * h + l.
Proof. intros H L. rewrite Z.lor_comm, lor_add_disjoint by lia. change (2 ^ 4) with 16. lia. Qed.
Lemma byte_nibbles x : is_byte x -> 0 <= Z.shiftr x 4 < 16 /\ 0 <= Z.land x 15 < 16 /\ 16 * Z.shiftr x 4 + Z.land x 15 = x.
Proof.
  unfold is_byte. intros H. rewrite Z.shiftr_div_pow2 by lia. change 15 with (Z.ones 4). rewrite Z.land_ones by lia.
  change (2 ^ 4) with 16. lia.
Qed.

(** unhex accepts exactly the even-length texts of hexadecimal digits, in either case, and
    gives the value of each pair. *)
Theorem C17_unhex : forall s r,
  unhex s = Some r <-> Nat.even (List.length s) = true /\ forallb is_hex_digit s = true /\ r = pairs_value s.
Proof.
  intros s. induction s as [|a|a b s IH] using (@two_step Z); intros r.
  - cbn. split; [intros H; injection H as <-; auto|intros (_ & _ & ->); reflexivity].
  - cbn [unhex List.length Nat.even]. destruct (get_digit a); split; try discriminate; intros (H & _); discriminate.
  - cbn [unhex List.length Nat.even forallb pairs_value]. rewrite !get_digit_spec.
    destruct (is_hex_digit a) eqn:Ha, (is_hex_digit b) eqn:Hb; cbn [andb]; try (split; [discriminate|intros (_ & H & _); discriminate]).
    rewrite lor_nibbles by now apply digit_value_range.
    destruct (unhex s) as [x|] eqn:E.
    + destruct (proj1 (IH x) eq_refl) as (H1 & H2 & ->). split.
      * intros H. injection H as <-. auto.
      * intros (_ & _ & ->). reflexivity.
    + split; [discriminate|]. intros (H1 & H2 & ->). exfalso.
      assert (X : None = Some (pairs_value s)) by (apply IH; auto). discriminate.
Qed.
Print Assumptions C17_unhex.
Theorem C17_roundtrip : forall b, bytes_ok b ->
  unhex (hex b) = Some b /\ from_json_hex (hex b) = Ok b /\
  List.length (hex b) = (2 * List.length b)%nat /\ forallb upper_hex_digit (hex b) = true.
Proof.
  intros b H. assert (G : unhex (hex b) = Some b /\ List.length (hex b) = (2 * List.length b)%nat /\ forallb upper_hex_digit (hex b) = true).
  { induction H as [|x b Hx Hb (I1 & I2 & I3)]; [repeat split|]. destruct (byte_nibbles x Hx) as (B1 & B2 & B3).
    destruct (nibble_digit _ B1) as (N1 & N2 & N3), (nibble_digit _ B2) as (M1 & M2 & M3).
    cbn [hex unhex List.length forallb]. rewrite !get_digit_spec, N2, M2, N3, M3, I1, lor_nibbles, B3 by auto.
    split; [reflexivity|]. split; [rewrite I2; lia|]. now rewrite N1, M1, I3. }
  destruct G as (G1 & G2 & G3). repeat split; auto. unfold from_json_hex. rewrite G2, Nat.even_mul. cbn [Nat.even orb check bind]. now rewrite G1.
Qed.
Print Assumptions C17_roundtrip.
Theorem C17_from_json_hex : forall s,
  from_json_hex s = if Nat.even (List.length s) && forallb is_hex_digit s then Ok (pairs_value s) else Err E_expected_hex_string.
Proof.
  intros s. unfold from_json_hex, check. destruct (Nat.even (List.length s)) eqn:Ev; cbn [bind andb]; [|reflexivity].
  destruct (unhex s) as [r|] eqn:E.
  - apply C17_unhex in E. destruct E as (_ & -> & ->). reflexivity.
  - destruct (forallb is_hex_digit s) eqn:F; [|reflexivity]. exfalso.
    assert (X : unhex s = Some (pairs_value s)) by (apply C17_unhex; auto). congruence.
Qed.
Print Assumptions C17_from_json_hex.
(** Decoded bytes printed again give the upper case form of the text. *)
Definition upcase (c : Z) : Z := if 97 <=? c then c - 32 else c.
Theorem C17_hex_of_unhex : forall s r, unhex s = Some r -> bytes_ok r /\ hex r = map upcase s.
Proof.
  intros s. induction s as [|a|a b s IH] using (@two_step Z); intros r H.
  - cbn in H. injection H as <-. split; [constructor|reflexivity].
  - cbn in H. destruct (get_digit a); discriminate.
  - cbn [unhex] in H. rewrite !get_digit_spec in H. destruct (is_hex_digit a) eqn:Ha, (is_hex_digit b) eqn:Hb; try discriminate.
    destruct (unhex s) as [x|] eqn:E; [|discriminate]. destruct (IH x eq_refl) as [I1 I2].
    pose proof (digit_value_range a Ha). pose proof (digit_value_range b Hb). rewrite lor_nibbles in H by auto.
    assert (Hr : r = (16 * digit_value a + digit_value b) :: x) by congruence. clear H. rewrite Hr. clear r Hr.
    assert (B : is_byte (16 * digit_value a + digit_value b)) by (unfold is_byte; lia).
    split; [constructor; auto|]. cbn [hex map]. rewrite I2. destruct (byte_nibbles _ B) as (B1 & B2 & B3).
    assert (N : forall c i, is_hex_digit c = true -> i = digit_value c -> nibble i = upcase c).
    { clear. intros c i Hc ->. unfold is_hex_digit in Hc. unfold nibble, digit_value, upcase. destruct (c <=? 57) eqn:?, (c <=? 70) eqn:?, (97 <=? c) eqn:?; try destruct (_ <=? 9) eqn:?; lia. }
    remember (Z.shiftr (16 * digit_value a + digit_value b) 4) as hi eqn:Eh. remember (Z.land (16 * digit_value a + digit_value b) 15) as lo eqn:El.
    assert (hi = digit_value a /\ lo = digit_value b) as [X1 X2] by (clear - B1 B2 B3 H0 H1; lia).
    rewrite (N a hi), (N b lo) by auto. reflexivity.
Qed.
Print Assumptions C17_hex_of_unhex.
Example C17_example : hex [0; 171; 255] = str "00ABFF" /\ unhex (str "00aBfF") = Some [0; 171; 255] /\ unhex (str "abc") = None /\ unhex (str "0g") = None.
Proof. vm_compute. auto. Qed.
