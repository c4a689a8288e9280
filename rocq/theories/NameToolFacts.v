(** * NameToolFacts: lemmas about num2name and name2num *)
From Verif Require Import Base Name NameFacts Decimal Capi NameTool NameToolSpec.

(** ** Digits *)
Lemma digit_fwd b c d : (b <= 16)%nat -> digit b c d -> digit_of c = Z.of_nat d /\ (d < b)%nat.
Proof.
  intros Hb H. assert (L : (d < b)%nat).
  { destruct H as [H|H]; assert (X : (d < List.length (firstn b _))%nat) by (apply nth_error_Some; rewrite H; discriminate); rewrite firstn_length in X; lia. }
  split; [|exact L]. assert (G : forall l, nth_error (firstn b l) d = Some c -> nth_error l d = Some c).
  { intros l Hl. rewrite <- (firstn_skipn b l). rewrite nth_error_app1; [exact Hl|]. apply nth_error_Some. rewrite Hl. discriminate. }
  assert (D : (d < 16)%nat) by lia. clear L. destruct H as [H|H]; apply G in H; clear G Hb;
    do 16 (destruct d as [|d]; [injection H as <-; reflexivity|]); lia.
Qed.
Lemma digit_bwd b c : (b <= 16)%nat -> is_digit_of (Z.of_nat b) c = true -> digit b c (Z.to_nat (digit_of c)).
Proof.
  unfold is_digit_of. intros Hb H. apply andb_true_iff in H as [H0 H1]. apply Z.leb_le in H0. apply Z.ltb_lt in H1.
  set (d := Z.to_nat (digit_of c)). assert (Ld : (d < b)%nat) by lia.
  assert (G : forall l, nth_error l d = Some c -> nth_error (firstn b l) d = Some c).
  { intros l Hl. rewrite <- (firstn_skipn b l) in Hl. rewrite nth_error_app1 in Hl; [exact Hl|]. rewrite firstn_length.
    assert (List.length (firstn b l ++ skipn b l) > d)%nat by (apply nth_error_Some; rewrite Hl; discriminate). rewrite firstn_skipn in H. lia. }
  enough (nth_error (str "0123456789abcdef") d = Some c \/ nth_error (str "0123456789ABCDEF") d = Some c) as [X|X]; [left; auto|right; auto|]. clear G.
  assert (Hd : d = Z.to_nat (digit_of c)) by reflexivity. clearbody d. unfold digit_of in *.
  destruct (is_digit c) eqn:E1.
  - left. apply is_digit_range in E1. assert (c = 48 + Z.of_nat d) by lia. assert (Dd : (d < 10)%nat) by lia. clear - Dd H. subst c.
    do 10 (destruct d as [|d]; [reflexivity|]). lia.
  - destruct ((97 <=? c) && (c <=? 122)) eqn:E2.
    + left. assert (c = 87 + Z.of_nat d) by lia. assert (D1 : (10 <= d)%nat) by lia. assert (D2 : (d < 16)%nat) by lia. clear - H D1 D2. subst c.
      do 10 (destruct d as [|d]; [lia|]). do 6 (destruct d as [|d]; [reflexivity|]). lia.
    + destruct ((65 <=? c) && (c <=? 90)) eqn:E3; [|lia].
      right. assert (c = 55 + Z.of_nat d) by lia. assert (D1 : (10 <= d)%nat) by lia. assert (D2 : (d < 16)%nat) by lia. clear - H D1 D2. subst c.
      do 10 (destruct d as [|d]; [lia|]). do 6 (destruct d as [|d]; [reflexivity|]). lia.
Qed.
Definition bval (b a : Z) (s : bytes) : Z := fold_left (fun a c => a * b + digit_of c) s a.
Lemma digits_bval b s v : (b <= 16)%nat -> digits b s v <-> s <> [] /\ forallb (is_digit_of (Z.of_nat b)) s = true /\ bval (Z.of_nat b) 0 s = v.
Proof.
  intros Hb. split.
  - induction 1 as [c d Hd|s v c d _ IH Hd].
    + destruct (digit_fwd _ _ _ Hb Hd) as [E L]. split; [discriminate|]. split; [cbn [forallb]; unfold is_digit_of; rewrite E; lia|]. unfold bval. cbn [fold_left]. lia.
    + destruct (digit_fwd _ _ _ Hb Hd) as [E L]. destruct IH as (N & F & V). split; [destruct s; discriminate|]. split.
      * rewrite forallb_app, F. cbn [forallb]. unfold is_digit_of. rewrite E. lia.
      * unfold bval in *. rewrite fold_left_app. cbn [fold_left]. lia.
  - intros (N & F & <-). induction s as [|c s IH] using rev_ind; [congruence|]. rewrite forallb_app in F. apply andb_true_iff in F as [F Fc]. cbn [forallb] in Fc. rewrite andb_true_r in Fc.
    pose proof (digit_bwd _ _ Hb Fc) as D. unfold is_digit_of in Fc. assert (R : Z.of_nat (Z.to_nat (digit_of c)) = digit_of c) by lia.
    unfold bval. rewrite fold_left_app. cbn [fold_left]. rewrite <- R. destruct s as [|x s].
    + apply One. exact D.
    + apply More; [|exact D]. apply IH; [discriminate|exact F].
Qed.
Lemma read_digits_spec b : forall s a, exists p r, s = p ++ r /\ read_digits b a s = (bval b a p, r) /\ forallb (is_digit_of b) p = true /\ match r with c :: _ => is_digit_of b c = false | [] => True end.
Proof.
  induction s as [|c s IH]; intros a; cbn [read_digits]; [exists [], []; repeat split|].
  destruct (is_digit_of b c) eqn:E; [|exists [], (c :: s); repeat split; exact E].
  destruct (IH (a * b + digit_of c)) as (p & r & -> & R & F & H). exists (c :: p), r. rewrite R. repeat split; [|exact H]. cbn [forallb]. now rewrite E.
Qed.
Lemma read_digits_all b s : forall a, forallb (is_digit_of b) s = true -> read_digits b a s = (bval b a s, []).
Proof. induction s as [|c s IH]; intros a F; cbn [read_digits]; [reflexivity|]. cbn [forallb] in F. apply andb_true_iff in F as [-> F]. now apply IH. Qed.

(** ** std::stoull *)
Lemma skip_space_spec s : exists w r, s = w ++ r /\ forallb is_space w = true /\ skip_space s = r /\ match r with c :: _ => is_space c = false | [] => True end.
Proof.
  induction s as [|c s (w & r & -> & F & E & H)]; cbn [skip_space]; [exists [], []; repeat split|]. destruct (is_space c) eqn:S.
  - exists (c :: w), r. cbn [forallb]. rewrite S. auto.
  - exists [], (c :: w ++ r). auto.
Qed.
Lemma skip_space_app w r : forallb is_space w = true -> match r with c :: _ => is_space c = false | [] => True end -> skip_space (w ++ r) = r.
Proof.
  induction w as [|c w IH]; intros F H.
  - destruct r as [|c r]; [reflexivity|]. cbn [app skip_space]. now rewrite H.
  - cbn [forallb] in F. apply andb_true_iff in F as [S F]. cbn [app skip_space]. rewrite S. auto.
Qed.
(** The magnitude, as [strtoull] reads it when everything is used up. *)
Definition read_magnitude (r : bytes) : option Z :=
  let (base, r) := read_base r in
  if match r with c :: _ => is_digit_of base c | [] => false end then
    match read_digits base 0 r with (v, []) => Some v | _ => None end
  else None.
Lemma first_digit b s v : (b <= 16)%nat -> digits b s v -> exists c t, s = c :: t /\ is_digit_of (Z.of_nat b) c = true.
Proof. intros Hb H. apply (digits_bval b s v Hb) in H as (N & F & _). destruct s as [|c t]; [congruence|]. cbn [forallb] in F. apply andb_true_iff in F as [F _]. eauto. Qed.
Lemma read_magnitude_spec r v : read_magnitude r = Some v <-> magnitude r v.
Proof.
  unfold read_magnitude. split.
  - destruct (read_base r) as [base q] eqn:B. destruct (match q with c :: _ => is_digit_of base c | [] => false end) eqn:F; [|discriminate].
    destruct (read_digits_spec base q 0) as (p & rest & Eq & R & Fp & H). rewrite R. destruct rest; [|discriminate]. intros E. assert (V : bval base 0 p = v) by congruence. rewrite app_nil_r in Eq. subst p.
    assert (Nq : q <> []) by (destruct q; [discriminate F|discriminate]).
    unfold read_base in B. destruct r as [|c r1]; [injection B as <- <-; discriminate F|].
    destruct (Z.eqb_spec c 48) as [->|Nc].
    + assert (X : base = 8 /\ q = 48 :: r1 \/ base = 16 /\ (48 :: r1 = str "0x" ++ q \/ 48 :: r1 = str "0X" ++ q)).
      { destruct r1 as [|x r2]; [injection B as <- <-; auto|]. destruct (Z.eqb_spec x 120) as [->|Nx]; [|destruct (Z.eqb_spec x 88) as [->|Nx']]; cbn [orb andb] in B.
        - destruct (match r2 with d :: _ => is_digit_of 16 d | [] => false end); injection B as <- <-; auto.
        - destruct (match r2 with d :: _ => is_digit_of 16 d | [] => false end); injection B as <- <-; auto.
        - injection B as <- <-. auto. }
      destruct X as [[-> ->]|[-> X]].
      * apply Octal; [|reflexivity]. apply (digits_bval 8); [lia|]. auto.
      * assert (D : digits 16 q v) by (apply (digits_bval 16); [lia|]; auto). destruct X as [-> | ->]; [now apply Hexadecimal|now apply HEXADECIMAL].
    + injection B as <- <-. apply Decimal; [|exact Nc]. apply (digits_bval 10); [lia|]. auto.
  - assert (G : forall b base q v, (b <= 16)%nat -> digits b q v -> base = Z.of_nat b ->
       (if match q with c :: _ => is_digit_of base c | [] => false end then match read_digits base 0 q with (v, []) => Some v | _ => None end else None) = Some v).
    { clear. intros b base q v Hb D ->. destruct (first_digit _ _ _ Hb D) as (c & t & E & Fc). apply (digits_bval b q v Hb) in D as (_ & F & V).
      rewrite (read_digits_all _ _ _ F), V. rewrite E, Fc. reflexivity. }
    intros H. destruct H as [s v D N|s v D N|s v D|s v D].
    + replace (read_base s) with (10, s); [apply (G 10%nat); auto; lia|]. destruct s as [|c s]; [reflexivity|]. cbn [hd] in N. unfold read_base. destruct (Z.eqb_spec c 48); [contradiction|reflexivity].
    + replace (read_base s) with (8, s); [apply (G 8%nat); auto; lia|]. destruct s as [|c s]; [discriminate N|]. cbn [hd] in N. subst c. unfold read_base. cbn [Z.eqb Pos.eqb].
      destruct s as [|x s]; [reflexivity|]. destruct ((x =? 120) || (x =? 88)) eqn:X; [|reflexivity]. exfalso.
      apply (digits_bval 8) in D as (_ & F & _); [|lia]. cbn [forallb] in F. apply andb_true_iff in F as [_ F]. apply andb_true_iff in F as [F _].
      apply orb_true_iff in X as [X|X]; apply Z.eqb_eq in X; subst x; vm_compute in F; discriminate F.
    + destruct (first_digit 16 s v ltac:(lia) D) as (c & t & E & F). change (Z.of_nat 16) with 16 in F.
      replace (read_base (str "0x" ++ s)) with (16, s); [apply (G 16%nat); auto; lia|]. rewrite E. change (read_base (str "0x" ++ c :: t)) with (if is_digit_of 16 c then (16, c :: t) else (8, str "0x" ++ c :: t)). now rewrite F.
    + destruct (first_digit 16 s v ltac:(lia) D) as (c & t & E & F). change (Z.of_nat 16) with 16 in F.
      replace (read_base (str "0X" ++ s)) with (16, s); [apply (G 16%nat); auto; lia|]. rewrite E. change (read_base (str "0X" ++ c :: t)) with (if is_digit_of 16 c then (16, c :: t) else (8, str "0X" ++ c :: t)). now rewrite F.
Qed.

Lemma white_spaces w : forallb is_space w = true <-> forall c, In c w -> white_space c.
Proof.
  rewrite forallb_forall. assert (A : forall c, is_space c = true <-> white_space c).
  { intros c. unfold is_space, white_space. cbn [In]. lia. }
  split; intros H c I; apply A, H, I.
Qed.
Lemma space_not_digit c b : is_digit_of b c = true -> is_space c = false.
Proof. unfold is_digit_of, digit_of, is_digit, is_space. destruct ((48 <=? c) && (c <=? 57)) eqn:?; [lia|]. destruct ((97 <=? c) && (c <=? 122)) eqn:?; [lia|]. destruct ((65 <=? c) && (c <=? 90)) eqn:?; lia. Qed.
Lemma digit_range c b : is_digit_of b c = true -> c <> 0 /\ c <> 45 /\ c <> 43 /\ is_space c = false.
Proof. intros H. split; [|split; [|split]]; [intros ->; unfold is_digit_of, digit_of, is_digit in H; cbn in H; lia..|]. eapply space_not_digit; eauto. Qed.
Lemma magnitude_hd m v : magnitude m v -> exists c t, m = c :: t /\ c <> 45 /\ c <> 43 /\ is_space c = false.
Proof.
  intros H. destruct H as [s v D N|s v D N|s v D|s v D].
  1: destruct (first_digit 10 s v ltac:(lia) D) as (c & t & -> & F).
  2: destruct (first_digit 8 s v ltac:(lia) D) as (c & t & -> & F).
  1-2: apply digit_range in F; exists c, t; tauto.
  all: do 2 eexists; (split; [reflexivity|]); repeat split; discriminate.
Qed.
Lemma magnitude_nonzero m v : magnitude m v -> ~ In 0 m.
Proof.
  assert (G : forall b s v, (b <= 16)%nat -> digits b s v -> ~ In 0 s).
  { intros b s w Hb D. apply (digits_bval b s w Hb) in D as (_ & F & _). rewrite forallb_forall in F. intros I. apply F in I. apply digit_range in I. tauto. }
  intros H. destruct H as [s v D N|s v D N|s v D|s v D]; try (eapply G; [|exact D]; lia); cbn [str app]; (intros [X|[X|X]]; [discriminate X|discriminate X|]; revert X; eapply (G 16%nat); [lia|exact D]).
Qed.
Lemma magnitude_nonneg m v : magnitude m v -> 0 <= v.
Proof.
  assert (G : forall b s v, digits b s v -> 0 <= v) by (induction 1; nia).
  intros H. destruct H; eauto.
Qed.
(** [strtoull] when nothing is left over *)
Lemma strtoull_magnitude s v : strtoull s = Some (v, false, []) <->
  exists w, let '(neg, r) := read_sign (skip_space s) in magnitude r w /\ w < 2 ^ 64 /\ v = (if neg : bool then (- w) mod 2 ^ 64 else w).
Proof.
  unfold strtoull. destruct (read_sign (skip_space s)) as [neg r]. setoid_rewrite <- read_magnitude_spec. unfold read_magnitude.
  destruct (read_base r) as [base q]. destruct (match q with c :: _ => is_digit_of base c | [] => false end).
  - destruct (read_digits base 0 q) as [w rest]. split.
    + destruct (Z.ltb_spec w (2 ^ 64)) as [L|L]; [|discriminate]. intros E. injection E as E ->. exists w. auto.
    + intros (w' & E & L & ->). destruct rest; [|discriminate]. injection E as ->. apply Z.ltb_lt in L. now rewrite L.
  - split; [discriminate|]. intros (w & E & _). discriminate E.
Qed.
Lemma upto_nul_le s : (List.length (upto_nul s) <= List.length s)%nat.
Proof. induction s as [|c s IH]; cbn [upto_nul]; [auto|]. destruct (c =? 0); cbn [List.length]; lia. Qed.
Lemma upto_nul_eq s : upto_nul s = s <-> ~ In 0 s.
Proof.
  induction s as [|c s IH]; cbn [upto_nul In]; [tauto|]. destruct (Z.eqb_spec c 0) as [->|N].
  - split; [discriminate|]. intros H. exfalso. tauto.
  - split.
    + intros E [X|X]; [congruence|]. assert (upto_nul s = s) by congruence. tauto.
    + intros H. f_equal. tauto.
Qed.
Lemma upto_nul_length s : List.length (upto_nul s) = List.length s -> upto_nul s = s.
Proof. induction s as [|c s IH]; cbn [upto_nul]; [auto|]. destruct (c =? 0); cbn [List.length]; [discriminate|]. intros H. f_equal. apply IH. lia. Qed.
Lemma stoull_spec s v : stoull s = Some (v, List.length s) <-> number s v.
Proof.
  unfold stoull. split.
  - destruct (strtoull (upto_nul s)) as [[[w f] rest]|] eqn:E; [|discriminate]. destruct f; [discriminate|]. intros H. injection H as -> H.
    pose proof (upto_nul_le s). assert (L : List.length (upto_nul s) = List.length s \/ s = []) by (destruct s; [auto|cbn [List.length] in *; lia]).
    assert (U : upto_nul s = s) by (destruct L as [L| ->]; [now apply upto_nul_length|reflexivity]). rewrite U in *.
    assert (Rest : rest = []).
    { destruct s as [|c s]; [discriminate E|]. destruct rest; [reflexivity|]. cbn [List.length] in H. lia. }
    subst rest. apply strtoull_magnitude in E as (m & E). destruct (skip_space_spec s) as (w & r & -> & F & S & _). rewrite S in E. pose proof (proj1 (white_spaces w) F) as F0; clear F; rename F0 into F. clear - E F.
    unfold read_sign in E. destruct r as [|c r].
    + destruct E as (M & _). apply magnitude_hd in M as (? & ? & X & _). discriminate X.
    + destruct (Z.eqb_spec c 45) as [->|N]; [|destruct (Z.eqb_spec c 43) as [->|N']]; destruct E as (M & L & ->).
      * eapply (Minus _ w r); eauto.
      * eapply (Plus _ w r); eauto.
      * eapply (Unsigned _ w (c :: r)); eauto.
  - assert (G : forall w sg m x, (forall c, In c w -> white_space c) -> (sg = [] \/ sg = str "+" \/ sg = str "-") -> magnitude m x -> x < 2 ^ 64 ->
       s = w ++ sg ++ m -> v = (if beq sg (str "-") then (- x) mod 2 ^ 64 else x) ->
       match strtoull (upto_nul s) with Some (v, false, rest) => Some (v, List.length (upto_nul s) - List.length rest)%nat | _ => None end = Some (v, List.length s)).
    { intros w sg m x F Sg M L Es Ev. pose proof (proj2 (white_spaces w) F) as F0; clear F; rename F0 into F.
      assert (U : upto_nul s = s).
      { apply upto_nul_eq. subst s. rewrite !in_app_iff. intros [X|[X|X]].
        - rewrite forallb_forall in F. apply F in X. discriminate X.
        - destruct Sg as [-> |[-> | ->]]; [destruct X|destruct X as [X|[]]; discriminate X..].
        - revert X. eapply magnitude_nonzero; eauto. }
      rewrite U. destruct (magnitude_hd _ _ M) as (c & t & Em & N1 & N2 & N3).
      replace (strtoull s) with (Some (v, false, [] : bytes)); [cbn [List.length]; rewrite Nat.sub_0_r; reflexivity|]. symmetry. apply strtoull_magnitude. exists x.
      rewrite Es, skip_space_app; [|exact F|destruct Sg as [-> |[-> | ->]]; [rewrite Em; exact N3|reflexivity..]].
      destruct Sg as [-> |[-> | ->]].
      - cbn [app]. rewrite Em. unfold read_sign. destruct (Z.eqb_spec c 45); [contradiction|]. destruct (Z.eqb_spec c 43); [contradiction|]. rewrite <- Em. auto.
      - cbn. auto.
      - cbn. auto. }
    intros H. destruct H as [w m v E F M L|w m v E F M L|w m v E F M L].
    + eapply (G w [] m v); eauto.
    + eapply (G w (str "+") m v); eauto.
    + eapply (G w (str "-") m v); eauto.
Qed.

(** ** Printed numbers *)
Lemma bval_app b a s t : bval b a (s ++ t) = bval b (bval b a s) t.
Proof. unfold bval. apply fold_left_app. Qed.
Definition hex_char (d : Z) : Z := if d <? 10 then 48 + d else 87 + d.
Lemma hex_char_digit d : 0 <= d < 16 -> digit_of (hex_char d) = d.
Proof.
  intros H. unfold hex_char, digit_of, is_digit. destruct (Z.ltb_spec d 10).
  - replace ((48 <=? 48 + d) && (48 + d <=? 57)) with true by lia. lia.
  - replace ((48 <=? 87 + d) && (87 + d <=? 57)) with false by lia. replace ((97 <=? 87 + d) && (87 + d <=? 122)) with true by lia. lia.
Qed.
Lemma hex_loop_spec fuel : forall n acc, (0 < fuel)%nat -> 0 <= n < 16 ^ Z.of_nat fuel ->
  exists d, hex_loop fuel n acc = d ++ acc /\ d <> [] /\ forallb (is_digit_of 16) d = true /\ bval 16 0 d = n.
Proof.
  induction fuel as [|f IH]; intros n acc Hf Hn; [lia|]. cbn [hex_loop]. fold (hex_char (n mod 16)).
  assert (M : 0 <= n mod 16 < 16) by (apply Z.mod_pos_bound; lia).
  assert (Hd : is_digit_of 16 (hex_char (n mod 16)) = true) by (unfold is_digit_of; rewrite hex_char_digit; lia).
  destruct (Z.eqb_spec (n / 16) 0) as [E|E].
  - exists [hex_char (n mod 16)]. split; [reflexivity|]. split; [discriminate|]. split; [cbn [forallb]; now rewrite Hd|]. unfold bval. cbn [fold_left]. rewrite hex_char_digit by exact M. lia.
  - rewrite Nat2Z.inj_succ, Z.pow_succ_r in Hn by lia. assert (B : 0 <= n / 16 < 16 ^ Z.of_nat f) by lia.
    assert (0 < f)%nat by (destruct f; [cbn in B; lia|lia]).
    destruct (IH (n / 16) (hex_char (n mod 16) :: acc) H B) as (d & -> & N & F & V). exists (d ++ [hex_char (n mod 16)]). rewrite <- app_assoc. split; [reflexivity|].
    split; [destruct d; discriminate|]. split; [rewrite forallb_app, F; cbn [forallb]; now rewrite Hd|]. rewrite bval_app, V. unfold bval. cbn [fold_left]. rewrite hex_char_digit by exact M. lia.
Qed.
Lemma hex_number_reads v : 0 <= v < 2 ^ 64 -> number (hex_number v) v.
Proof.
  intros H. unfold hex_number. destruct (Z.eqb_spec v 0) as [->|N].
  - apply (Unsigned _ [] [48]); [reflexivity|intros ? []| |lia]. apply Octal; [|reflexivity]. apply (digits_bval 8); [lia|]. repeat split. discriminate.
  - destruct (hex_loop_spec 16 v [] ltac:(lia)) as (d & E & Nd & F & V); [change (16 ^ Z.of_nat 16) with (2 ^ 64); lia|]. rewrite E, app_nil_r.
    apply (Unsigned _ [] (str "0x" ++ d)); [reflexivity|intros ? []| |lia]. apply Hexadecimal. apply (digits_bval 16); [lia|]. auto.
Qed.
Lemma dval_bval s : forallb is_digit s = true -> dval s = bval 10 0 s.
Proof.
  unfold dval, bval. generalize 0. induction s as [|c s IH]; intros a F; [reflexivity|]. cbn [forallb] in F. apply andb_true_iff in F as [Fc F]. cbn [fold_left]. rewrite IH by exact F.
  f_equal. unfold digit_of. now rewrite Fc.
Qed.
Lemma digit10 c : is_digit c = true -> is_digit_of 10 c = true.
Proof. intros H. unfold is_digit_of, digit_of. rewrite H. apply is_digit_range in H. lia. Qed.
Lemma dec_reads v : 0 <= v < 2 ^ 64 -> number (dec v) v.
Proof.
  intros H. destruct (Z.eq_dec v 0) as [->|N].
  - apply (Unsigned _ [] [48]); [reflexivity|intros ? []| |lia]. apply Octal; [|reflexivity]. apply (digits_bval 8); [lia|]. repeat split. discriminate.
  - destruct (dec_loop_spec (S (Z.to_nat (Z.log2 v))) v []) as (d & E & F & V & Nd & _ & L); [|lia|].
    { split; [lia|]. rewrite Nat2Z.inj_succ, Z2Nat.id by apply Z.log2_nonneg. apply Z.log2_spec. lia. }
    unfold dec. rewrite E, app_nil_r. destruct (L ltac:(lia)) as (c & d' & -> & Nc).
    apply (Unsigned _ [] (c :: d')); [reflexivity|intros ? []| |lia]. apply Decimal; [|exact Nc]. apply (digits_bval 10); [lia|]. split; [discriminate|]. split.
    + rewrite forallb_forall in *. intros x Hx. apply (digit10 x). auto.
    + rewrite <- V. symmetry. now apply dval_bval.
Qed.
Lemma number_range s v : number s v -> 0 <= v < 2 ^ 64.
Proof. intros H. destruct H as [w m v E F M L|w m v E F M L|w m v E F M L]; [| |apply Z.mod_pos_bound; lia]; apply magnitude_nonneg in M; lia. Qed.
Lemma number_unique s v w : number s v -> number s w -> v = w.
Proof. intros H K. apply stoull_spec in H, K. congruence. Qed.

(** ** Lines *)
Lemma getlines_line l : forall cur s, ~ In 10 l -> getlines (l ++ 10 :: s) cur = (cur ++ l) :: getlines s [].
Proof.
  induction l as [|c l IH]; intros cur s N; cbn [app getlines].
  - cbn [Z.eqb Pos.eqb]. now rewrite app_nil_r.
  - cbn [In] in N. destruct (Z.eqb_spec c 10); [tauto|]. rewrite IH by tauto. now rewrite <- app_assoc.
Qed.
Lemma getlines_last l : forall cur, ~ In 10 l -> getlines l cur = match cur ++ l with [] => [] | x => [x] end.
Proof.
  induction l as [|c l IH]; intros cur N; cbn [getlines]; [rewrite app_nil_r; now destruct cur|].
  cbn [In] in N. destruct (Z.eqb_spec c 10); [tauto|]. rewrite IH by tauto. now rewrite <- app_assoc.
Qed.
Lemma getlines_all ls : forall s, (forall l, In l ls -> ~ In 10 l) -> getlines (concat (map line ls) ++ s) [] = ls ++ getlines s [].
Proof.
  induction ls as [|l ls IH]; intros s H; [reflexivity|]. cbn [map concat]. unfold line at 1. rewrite <- !app_assoc. cbn [app].
  rewrite getlines_line by (apply H; now left). cbn [app]. rewrite IH; [reflexivity|]. intros; apply H; now right.
Qed.
Lemma getlines_spec input ls : lines_are input ls -> getlines input [] = ls.
Proof.
  intros (H & [->|(b & l & -> & N & ->)]).
  - rewrite <- (app_nil_r (concat _)), getlines_all by exact H. cbn [getlines]. apply app_nil_r.
  - rewrite getlines_all by (intros; apply H; apply in_app_iff; now left). f_equal. rewrite getlines_last by (apply H; apply in_app_iff; right; now left). cbn [app]. destruct l; [congruence|reflexivity].
Qed.
Lemma lines_exist input : exists ls, lines_are input ls.
Proof.
  assert (G : forall s cur, ~ In 10 cur -> exists ls l, cur ++ s = concat (map line ls) ++ l /\ ~ In 10 l /\ forall x, In x ls -> ~ In 10 x).
  { induction s as [|c s IH]; intros cur N.
    - exists [], cur. rewrite app_nil_r. split; [reflexivity|]. split; [exact N|]. intros x [].
    - destruct (Z.eq_dec c 10) as [->|Nc].
      + destruct (IH [] (fun x => x)) as (ls & l & E & Nl & Nls). exists (cur :: ls), l. cbn [map concat]. unfold line at 1. rewrite <- !app_assoc. cbn [app] in *. rewrite E.
        split; [reflexivity|]. split; [exact Nl|]. intros x [<-|Hx]; auto.
      + destruct (IH (cur ++ [c])) as (ls & l & E & R); [rewrite in_app_iff; cbn [In]; intuition congruence|]. exists ls, l. rewrite <- app_assoc in E. auto. }
  destruct (G input [] (fun x => x)) as (ls & l & E & N & Nls). cbn [app] in E. destruct l as [|c l].
  - exists ls. split; [exact Nls|]. left. now rewrite app_nil_r in E.
  - exists (ls ++ [c :: l]). split; [intros x Hx; apply in_app_iff in Hx as [Hx|[<-|[]]]; auto|]. right. exists ls, (c :: l). repeat split; [discriminate|exact E].
Qed.

(** ** The loop over the inputs *)
Lemma handle_all_spec r h l : forall o e n, n = 0 \/ n = 1 ->
  handle_all l r h o e n = (o ++ concat (map (fun s => out (handle_one s r h)) l), e ++ concat (map (fun s => err (handle_one s r h)) l),
                            if (n =? 0) && forallb (fun s => ok (handle_one s r h)) l then 0 else 1).
Proof.
  induction l as [|s l IH]; intros o e n Hn; cbn [handle_all map concat forallb].
  - rewrite !app_nil_r, andb_true_r. destruct Hn as [-> | ->]; reflexivity.
  - rewrite IH by (destruct Hn as [-> | ->]; destruct (ok _); auto). rewrite <- !app_assoc. f_equal. destruct Hn as [-> | ->]; destruct (ok (handle_one s r h)); reflexivity.
Qed.

(** ** Options *)
Definition turn_hex (h : bool) (l : bytes) : bool := fold_left (fun h c => if c =? 120 then true else if c =? 100 then false else h) l h.
Definition turn_rev (r : bool) (l : bytes) : bool := fold_left (fun r c => if c =? 114 then negb r else r) l r.
Lemma letters_ok a l : forall o, forallb (fun c => existsb (Z.eqb c) (str "xdr")) l = true -> letters a l o = Go (Options (turn_rev (reverse o) l) (turn_hex (hex o) l) (names o)).
Proof.
  induction l as [|c l IH]; intros o F; [destruct o; reflexivity|]. cbn [forallb] in F. apply andb_true_iff in F as [Fc F]. cbn [letters turn_rev turn_hex fold_left].
  destruct (Z.eqb_spec c 120) as [->|N1]; [rewrite IH by exact F; reflexivity|].
  destruct (Z.eqb_spec c 100) as [->|N2]; [rewrite IH by exact F; reflexivity|].
  destruct (Z.eqb_spec c 114) as [->|N3]; [rewrite IH by exact F; reflexivity|].
  exfalso. apply existsb_exists in Fc as (x & Hx & Ex). apply Z.eqb_eq in Ex. subst x. cbn in Hx. intuition.
Qed.

Lemma turn_rev_spec l : forall r, turn_rev r l = xorb r (turned l).
Proof.
  unfold turned. induction l as [|c l IH]; intros r; [now rewrite xorb_false_r|]. unfold turn_rev in *. cbn [fold_left]. rewrite IH. cbn [count_occ].
  destruct (Z.eq_dec c 114) as [->|N].
  - cbn [Z.eqb Pos.eqb]. rewrite Nat.odd_succ, <- Nat.negb_odd. now destruct r, (Nat.odd _).
  - destruct (Z.eqb_spec c 114); [congruence|reflexivity].
Qed.
Lemma turn_hex_app l k : forall h, turn_hex h (l ++ k) = turn_hex (turn_hex h l) k.
Proof. intros h. apply fold_left_app. Qed.
Lemma turn_rev_app l k : forall h, turn_rev h (l ++ k) = turn_rev (turn_rev h l) k.
Proof. intros h. apply fold_left_app. Qed.
Lemma turn_hex_spec l : turn_hex true l = true <-> in_hex l.
Proof.
  induction l as [|c l IH] using rev_ind.
  - split; [|reflexivity]. intros _ p q H. destruct p; discriminate H.
  - rewrite turn_hex_app. unfold turn_hex at 1. cbn [fold_left]. destruct (Z.eqb_spec c 120) as [->|N1].
    { split; [|reflexivity]. intros _ p q H. destruct q as [|y q _] using rev_ind.
      - rewrite app_nil_r in H. apply app_inj_tail in H as [_ X]. discriminate X.
      - rewrite !app_assoc in H. apply app_inj_tail in H as [_ X]. apply in_app_iff. right. left. auto. }
    destruct (Z.eqb_spec c 100) as [->|N2].
    { split; [discriminate|]. intros H. exfalso. exact (H l [] eq_refl). }
    rewrite IH. split; intros H p q E.
    + destruct q as [|y q _] using rev_ind.
      * rewrite app_nil_r in E. apply app_inj_tail in E as [_ X]. exfalso. apply N2. exact X.
      * rewrite !app_assoc in E. apply app_inj_tail in E as [E _]. apply in_app_iff. left. apply (H p q). now rewrite E, <- app_assoc.
    + assert (X : In 120 (q ++ [c])) by (apply (H p); now rewrite E, <- !app_assoc). apply in_app_iff in X as [X|[X|[]]]; [exact X|congruence].
Qed.
(** A list of letters which is not all known. *)
Lemma letters_bad a l : forall o, forallb (fun c => existsb (Z.eqb c) (str "xdr")) l = false -> exists r, letters a l o = Stop (usage r) \/ letters a l o = Stop (line (str "Unknown argument: " ++ a)).
Proof.
  induction l as [|c l IH]; intros o F; [discriminate F|]. cbn [forallb] in F. cbn [letters].
  destruct (Z.eqb_spec c 120) as [->|N1]; [apply IH; exact F|].
  destruct (Z.eqb_spec c 100) as [->|N2]; [apply IH; exact F|].
  destruct (Z.eqb_spec c 114) as [->|N3]; [apply IH; exact F|].
  destruct (c =? 104); exists (reverse o); auto.
Qed.
Lemma argument_name a o : a <> [] -> is_option a = false -> argument a o = Go (Options (reverse o) (hex o) (names o ++ [a])).
Proof. unfold is_option. destruct a as [|c a]; [congruence|]. cbn [hd]. intros _ H. unfold argument. now rewrite H. Qed.
Lemma argument_option a o l : is_option a = true -> option_letters a = Some l -> argument a o = Go (Options (turn_rev (reverse o) l) (turn_hex (hex o) l) (names o)).
Proof.
  unfold is_option. destruct a as [|c a]; [discriminate|]. cbn [hd]. intros H. apply Z.eqb_eq in H. subst c. unfold option_letters, argument. rewrite Z.eqb_refl. cbn [tl].
  destruct (beq (45 :: a) (str "--help")) eqn:E0.
  { apply beq_eq in E0. rewrite E0. assert (A : a = tl (str "--help")) by (rewrite <- E0; reflexivity). rewrite A. intros X. vm_compute in X. discriminate X. }
  destruct (beq (45 :: a) (str "--reverse")); [intros X; injection X as <-; reflexivity|].
  destruct (beq (45 :: a) (str "--hex")); [intros X; injection X as <-; reflexivity|].
  destruct (beq (45 :: a) (str "--dec")); [intros X; injection X as <-; reflexivity|].
  destruct (forallb _ a) eqn:F; [|discriminate]. intros X. injection X as <-. now apply letters_ok.
Qed.
Lemma argument_bad a o : is_option a = true -> option_letters a = None -> exists r, argument a o = Stop (usage r) \/ argument a o = Stop (line (str "Unknown argument: " ++ a)).
Proof.
  unfold is_option. destruct a as [|c a]; [discriminate|]. cbn [hd]. intros H. apply Z.eqb_eq in H. subst c. unfold option_letters, argument. rewrite Z.eqb_refl. cbn [tl].
  destruct (beq (45 :: a) (str "--help")); [exists (reverse o); auto|].
  destruct (beq (45 :: a) (str "--reverse")); [discriminate|].
  destruct (beq (45 :: a) (str "--hex")); [discriminate|].
  destruct (beq (45 :: a) (str "--dec")); [discriminate|].
  destruct (forallb _ a) eqn:F; [discriminate|]. intros _. now apply letters_bad.
Qed.
Lemma arguments_ok l : forall o, (forall a, In a l -> a <> []) -> (forall a, In a l -> is_option a = true -> option_letters a <> None) ->
  arguments l o = Go (Options (turn_rev (reverse o) (all_letters l)) (turn_hex (hex o) (all_letters l)) (names o ++ filter (fun a => negb (is_option a)) l)).
Proof.
  induction l as [|a l IH]; intros o N K; [destruct o; cbn; now rewrite app_nil_r|]. cbn [arguments]. unfold all_letters in *. cbn [filter]. destruct (is_option a) eqn:E; cbn [negb map concat].
  - destruct (option_letters a) as [t|] eqn:T; [|exfalso; eapply K; eauto; now left]. rewrite (argument_option a o t E T), IH by (intros; first [apply N|apply K]; auto; now right).
    cbn [reverse hex names]. now rewrite turn_rev_app, turn_hex_app.
  - rewrite argument_name by (auto; apply N; now left). rewrite IH by (intros; first [apply N|apply K]; auto; now right). cbn [reverse hex names]. now rewrite <- app_assoc.
Qed.
Lemma arguments_bad l : forall o a b, (forall a, In a l -> a <> []) -> (forall a, In a l -> is_option a = true -> option_letters a <> None) -> is_option a = true -> option_letters a = None ->
  exists r, arguments (l ++ a :: b) o = Stop (usage r) \/ arguments (l ++ a :: b) o = Stop (line (str "Unknown argument: " ++ a)).
Proof.
  induction l as [|x l IH]; intros o a b N K E T; cbn [app arguments].
  - destruct (argument_bad a o E T) as (r & [-> | ->]); exists r; auto.
  - destruct (is_option x) eqn:Ex.
    + destruct (option_letters x) as [t|] eqn:Tx; [|exfalso; eapply K; eauto; now left]. rewrite (argument_option x o t Ex Tx). apply IH; auto; intros; first [apply N|apply K]; auto; now right.
    + rewrite argument_name by (auto; apply N; now left). apply IH; auto; intros; first [apply N|apply K]; auto; now right.
Qed.

Lemma arguments_empty l : forall o b, (forall a, In a l -> a <> []) -> (forall a, In a l -> is_option a = true -> option_letters a <> None) ->
  arguments (l ++ [] :: b) o = Bad "string_view index out of range".
Proof.
  induction l as [|x l IH]; intros o b N K; cbn [app arguments]; [reflexivity|].
  destruct (is_option x) eqn:Ex.
  - destruct (option_letters x) as [t|] eqn:Tx; [|exfalso; eapply K; eauto; now left]. rewrite (argument_option x o t Ex Tx). apply IH; auto; intros; first [apply N|apply K]; auto; now right.
  - rewrite argument_name by (auto; apply N; now left). apply IH; auto; intros; first [apply N|apply K]; auto; now right.
Qed.

(** ** std::string_view::find *)
Lemma starts_with_spec p : forall s, starts_with p s = true <-> exists q, s = p ++ q.
Proof.
  induction p as [|x p IH]; intros s; cbn [starts_with]; [split; [exists s; reflexivity|reflexivity]|]. destruct s as [|y s]; [split; [discriminate|intros (q & E); discriminate E]|].
  rewrite andb_true_iff, IH, Z.eqb_eq. split; [intros (-> & q & ->); exists q; reflexivity|]. intros (q & E). injection E as -> ->. eauto.
Qed.
Lemma contains_spec p s : contains p s = true <-> exists a b, s = a ++ p ++ b.
Proof.
  induction s as [|c s IH]; cbn [contains]; rewrite orb_true_iff, starts_with_spec.
  - split; [intros [(q & E)|X]; [exists [], q; exact E|discriminate X]|]. intros (a & b & E). left. destruct a; [exists b; exact E|discriminate E].
  - rewrite IH. split.
    + intros [(q & E)|(a & b & E)]; [exists [], q; exact E|exists (c :: a), b; cbn [app]; now rewrite E].
    + intros (a & b & E). destruct a as [|x a]; [left; exists b; exact E|right]. injection E as -> ->. eauto.
Qed.

(** ** The texts of numbers *)
Lemma hex_loop_lower fuel : forall n acc, (forall c, In c acc -> In c (str "0123456789abcdef")) -> forall c, In c (hex_loop fuel n acc) -> In c (str "0123456789abcdef").
Proof.
  induction fuel as [|f IH]; intros n acc H c; cbn [hex_loop]; [apply H|]. fold (hex_char (n mod 16)).
  assert (X : In (hex_char (n mod 16)) (str "0123456789abcdef")).
  { assert (M : 0 <= n mod 16 < 16) by (apply Z.mod_pos_bound; lia). generalize dependent (n mod 16). clear. intros m M.
    assert (E : hex_char m = nth (Z.to_nat m) (str "0123456789abcdef") 0).
    { assert (Q : forallb (fun k => hex_char (Z.of_nat k) =? nth k (str "0123456789abcdef") 0) (seq 0 16) = true) by reflexivity. rewrite forallb_forall in Q.
      specialize (Q (Z.to_nat m)). rewrite Z2Nat.id in Q by lia. apply Z.eqb_eq, Q, in_seq. lia. }
    rewrite E. apply nth_In. cbn [str List.length]. change (List.length _) with 16%nat. lia. }
  destruct (n / 16 =? 0); [intros [<-|I]; auto|]. apply IH. intros x [<-|I]; auto.
Qed.
Lemma hex_loop_hd fuel : forall n acc, (0 < fuel)%nat -> 0 < n < 16 ^ Z.of_nat fuel -> hd 0 (hex_loop fuel n acc) <> 48.
Proof.
  induction fuel as [|f IH]; intros n acc Hf Hn; [lia|]. cbn [hex_loop]. destruct (Z.eqb_spec (n / 16) 0) as [E|E].
  - cbn [hd]. assert (n mod 16 = n) by lia. destruct (Z.ltb_spec (n mod 16) 10); lia.
  - assert (Hp : 16 ^ Z.of_nat (S f) = 16 * 16 ^ Z.of_nat f) by (rewrite Nat2Z.inj_succ, Z.pow_succ_r; lia).
    destruct f as [|f]; [cbn in Hn; lia|]. apply IH; [lia|]. lia.
Qed.
Lemma hex_number_text v : 0 <= v < 2 ^ 64 -> hex_text (hex_number v) v.
Proof.
  intros H. unfold hex_number, hex_text. destruct (Z.eqb_spec v 0) as [->|N]; [left; auto|]. right. exists (hex_loop 16 v []).
  change (2 ^ 64) with (16 ^ Z.of_nat 16) in H.
  destruct (hex_loop_spec 16 v [] ltac:(lia) H) as (d & E & Nd & F & V). rewrite app_nil_r in E.
  repeat split; [rewrite E; apply (digits_bval 16); [lia|auto]|apply hex_loop_hd; lia|]. apply hex_loop_lower. intros c [].
Qed.
Lemma dec_text v : 0 <= v < 2 ^ 64 -> decimal_text (dec v) v.
Proof.
  intros H. destruct (Z.eq_dec v 0) as [->|N].
  - split; [|reflexivity]. apply (digits_bval 10); [lia|]. repeat split. discriminate.
  - destruct (dec_loop_spec (S (Z.to_nat (Z.log2 v))) v []) as (d & E & F & V & Nd & _ & L); [|lia|].
    { split; [lia|]. rewrite Nat2Z.inj_succ, Z2Nat.id by apply Z.log2_nonneg. apply Z.log2_spec. lia. }
    unfold dec. rewrite E, app_nil_r. destruct (L ltac:(lia)) as (c & d' & -> & Nc). split; [|cbn [hd]; congruence].
    apply (digits_bval 10); [lia|]. split; [discriminate|]. rewrite <- dval_bval by exact F. split; [|exact V].
    rewrite forallb_forall in *. intros x Hx. now apply digit10, F.
Qed.
Lemma digits_line b s v : (b <= 16)%nat -> digits b s v -> ~ In 10 s.
Proof. intros Hb D I. apply (digits_bval b s v Hb) in D as (_ & F & _). rewrite forallb_forall in F. apply F, digit_range in I. destruct I as (_ & _ & _ & I). discriminate I. Qed.
Lemma hex_text_line t v : hex_text t v -> ~ In 10 t.
Proof. intros [(_ & ->)|(d & -> & D & _)]; [cbn; lia|]. cbn [str app]. intros [X|[X|X]]; [discriminate X|discriminate X|]. revert X. eapply (digits_line 16); [lia|exact D]. Qed.
Lemma decimal_text_line t v : decimal_text t v -> ~ In 10 t.
Proof. intros [D _]. eapply (digits_line 10); [lia|exact D]. Qed.
Lemma hex_text_reads t v : 0 <= v < 2 ^ 64 -> hex_text t v -> number t v.
Proof.
  intros H [(-> & ->)|(d & -> & D & _)].
  - apply (Unsigned _ [] [48]); [reflexivity|intros ? []| |lia]. apply Octal; [|reflexivity]. apply (digits_bval 8); [lia|]. repeat split. discriminate.
  - apply (Unsigned _ [] (str "0x" ++ d)); [reflexivity|intros ? []|now apply Hexadecimal|lia].
Qed.
Lemma decimal_text_reads t v : 0 <= v < 2 ^ 64 -> decimal_text t v -> number t v.
Proof.
  intros H [D Z0]. destruct (Z.eq_dec (hd 0 t) 48) as [E|E].
  - rewrite (Z0 E) in *. apply (digits_bval 10) in D as (_ & _ & V); [|lia]. cbn in V. subst v.
    apply (Unsigned _ [] [48]); [reflexivity|intros ? []| |lia]. apply Octal; [|reflexivity]. apply (digits_bval 8); [lia|]. repeat split. discriminate.
  - apply (Unsigned _ [] t); [reflexivity|intros ? []|now apply Decimal|lia].
Qed.
Lemma name_text_line v : 0 <= v < 2 ^ 64 -> ~ In 10 (name_to_string v).
Proof.
  intros H I. destruct (name_text_valid v H) as (L & F & _). rewrite forallb_forall in F. apply F in I. discriminate I.
Qed.

(** ** One input *)
Lemma handle_one_spec s r h : answer r h s (handle_one s r h).
Proof.
  unfold answer, handle_one. destruct r.
  - unfold to_number, string_to_name_strict. destruct (try_string_to_name_strict s) as [v|e|w] eqn:E.
    + left. exists v, (number_text h v). pose proof E as E0. rewrite strict_accepts in E. destruct E as [V Ev]. assert (R : 0 <= v < 2 ^ 64) by (rewrite Ev; apply string_to_name_range).
      split; [exact V|]. split; [exact R|]. split; [|split; [|reflexivity]].
      * rewrite Ev. now apply name_print_parse.
      * unfold number_text. destruct h; [now apply hex_number_text|now apply dec_text].
    + right. split.
      * intros V. assert (X : try_string_to_name_strict s = Ok (string_to_name s)) by (apply strict_accepts; auto). congruence.
      * exists (what e). split; [reflexivity|]. rewrite strict_spec in E.
        assert (Q : e = E_invalid_name_char \/ e = E_invalid_name_char13 \/ e = E_name_too_long).
        { repeat match type of E with context [match ?x with _ => _ end] => destruct x end; try discriminate E; injection E as <-; auto. }
        destruct Q as [-> | [-> | ->]]; cbn [what In]; auto.
    + exfalso. rewrite strict_spec in E. repeat match type of E with context [match ?x with _ => _ end] => destruct x end; discriminate E.
  - unfold to_name. destruct (stoull s) as [[v pos]|] eqn:E.
    + destruct (Nat.eqb_spec pos (List.length s)) as [->|N].
      * left. exists v. split; [now apply stoull_spec|reflexivity].
      * right. split; [|now right]. intros w H. apply stoull_spec in H. congruence.
    + right. split; [|now left]. intros w H. apply stoull_spec in H. congruence.
Qed.

Lemma handle_all_good {A} (k g : A -> bytes) r h (l : list A) : (forall i, In i l -> handle_one (k i) r h = Written (line (g i)) [] true) ->
  handle_all (map k l) r h [] [] 0 = (concat (map (fun i => line (g i)) l), [], 0).
Proof.
  intros Q. rewrite handle_all_spec by now left. cbn [app Z.eqb andb]. rewrite !map_map. f_equal; [f_equal|].
  - f_equal. apply map_ext_in. intros i Hi. now rewrite Q.
  - induction l as [|i l IH]; [reflexivity|]. cbn [map concat]. rewrite Q by now left. cbn [err app]. apply IH. intros; apply Q; now right.
  - induction l as [|i l IH]; [reflexivity|]. cbn [map forallb]. rewrite Q by now left. cbn [ok andb]. apply IH. intros; apply Q; now right.
Qed.
