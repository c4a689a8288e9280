(** * FpconvReal: the printed decimal lies between the neighbours' midpoints (proofs) *)
From Coq Require Import QArith Qabs Qpower Lqa.
From Verif Require Import Base Json JsonSpec Fpconv FpconvFacts FpconvSpec.
Open Scope Z_scope.

Lemma qpow_pos b z : 0 < b -> (0 < inject_Z b ^ z)%Q.
Proof. intros H. apply Qpower_0_lt. change 0%Q with (inject_Z 0). rewrite <- Zlt_Qlt. exact H. Qed.
Lemma qpow_add b x y : 0 < b -> (inject_Z b ^ (x + y) == inject_Z b ^ x * inject_Z b ^ y)%Q.
Proof. intros H. apply Qpower_plus. intros E. assert (X : (inject_Z b == inject_Z 0)%Q) by exact E. rewrite inject_Z_injective in X. lia. Qed.
Lemma qpow_Z b z : 0 <= z -> (inject_Z (b ^ z) == inject_Z b ^ z)%Q.
Proof. intros H. apply Zpower_Qpower. exact H. Qed.
(** A power with any exponent as a quotient of integers. *)
Lemma qpow_split b z : 0 < b -> (inject_Z (b ^ pos z) == inject_Z b ^ z * inject_Z (b ^ pos (- z)))%Q.
Proof.
  intros H. rewrite !qpow_Z by (unfold pos; lia). rewrite <- qpow_add by exact H. replace (z + pos (- z)) with (pos z) by (unfold pos; lia). reflexivity.
Qed.

Section Core.
  Open Scope Q_scope.
  (** The cached power is right up to half a unit. *)
  Lemma power_close p k : power_ok p k = true ->
    inject_Z (frac p) * 2 ^ fexp p - 10 ^ k <= 2 ^ fexp p * (1 # 2) /\ 10 ^ k - inject_Z (frac p) * 2 ^ fexp p <= 2 ^ fexp p * (1 # 2).
  Proof.
    unfold power_ok. intros H. apply andb_true_iff in H as [H H3]. apply Z.leb_le in H3.
    set (a := (2 ^ pos (fexp p))%Z) in *. set (b := (2 ^ pos (- fexp p))%Z) in *. set (c := (10 ^ pos k)%Z) in *. set (d := (10 ^ pos (- k))%Z) in *.
    assert (Ha : inject_Z a == 2 ^ fexp p * inject_Z b) by (apply (qpow_split 2 (fexp p)); lia).
    assert (Hc : inject_Z c == 10 ^ k * inject_Z d) by (apply (qpow_split 10 k); lia).
    assert (Pb : (0 < b)%Z) by (apply Z.pow_pos_nonneg; unfold pos; lia). assert (Pd : (0 < d)%Z) by (apply Z.pow_pos_nonneg; unfold pos; lia).
    assert (Pbd : 0 < inject_Z b * inject_Z d).
    { rewrite <- inject_Z_mult. change 0 with (inject_Z 0). rewrite <- Zlt_Qlt. nia. }
    assert (I1 : (2 * (frac p * a * d - c * b) <= a * d)%Z) by lia. assert (I2 : (2 * (c * b - frac p * a * d) <= a * d)%Z) by lia.
    rewrite Zle_Qle in I1, I2. rewrite !inject_Z_mult in I1, I2. unfold Z.sub in I1, I2. rewrite !inject_Z_plus, !inject_Z_opp, !inject_Z_mult in I1, I2.
    rewrite Ha, Hc in I1, I2. set (X := 2 ^ fexp p) in *. set (Y := 10 ^ k) in *. set (B := inject_Z b) in *. set (D := inject_Z d) in *. set (F := inject_Z (frac p)) in *. change (inject_Z 2) with 2 in *. clearbody X Y B D F.
    split; apply (Qmult_le_r _ _ _ Pbd).
    - setoid_replace ((F * X - Y) * (B * D)) with ((1 # 2) * (2 * (F * (X * B) * D + - (Y * D * B)))) by ring. setoid_replace (X * (1 # 2) * (B * D)) with ((1 # 2) * (X * B * D)) by ring. lra.
    - setoid_replace ((Y - F * X) * (B * D)) with ((1 # 2) * (2 * (Y * D * B + - (F * (X * B) * D)))) by ring. setoid_replace (X * (1 # 2) * (B * D)) with ((1 # 2) * (X * B * D)) by ring. lra.
  Qed.
  (** From the integer inequalities of the digit generator to the value printed. *)
  Lemma interval (U L c D N Lo : Z) (ue ce k kappa : Z) :
    (0 <= U < 2 ^ 64)%Z -> (0 <= L < 2 ^ 64)%Z ->
    power_ok (Fp c ce) k = true ->
    (2 ^ 64 * N + 2 ^ 64 <= U * c + 2 ^ 63)%Z -> (L * c + 2 ^ 63 < 2 ^ 64 * Lo)%Z ->
    (10 ^ pos (- kappa) * Lo <= D * 10 ^ pos kappa * 2 ^ (- (ue + ce + 64)) <= 10 ^ pos (- kappa) * N)%Z -> (ue + ce + 64 <= 0)%Z ->
    inject_Z L * 2 ^ ue < inject_Z D * 10 ^ (kappa - k) /\ inject_Z D * 10 ^ (kappa - k) < inject_Z U * 2 ^ ue.
  Proof.
    intros HU HL Hp HN HLo [HD1 HD2] Hs. destruct (power_close _ _ Hp) as [P1 P2]. cbn [frac fexp] in P1, P2.
    set (s := (- (ue + ce + 64))%Z) in *.
    rewrite Zle_Qle in HN, HD1, HD2. rewrite Zlt_Qlt in HLo. rewrite !inject_Z_plus, !inject_Z_mult in *.
    rewrite (qpow_split 10 kappa) in HD1, HD2 by lia.
    rewrite (qpow_Z 2 s) in HD1, HD2 by lia.
    assert (PT : 0 < inject_Z (10 ^ pos (- kappa))) by (change 0 with (inject_Z 0); rewrite <- Zlt_Qlt; apply Z.pow_pos_nonneg; unfold pos; lia).
    set (T := inject_Z (10 ^ pos (- kappa))) in *. change (inject_Z 10) with 10 in *. change (inject_Z 2) with 2 in *. 
    assert (ES : 2 ^ s * (2 ^ ue * 2 ^ ce * 2 ^ 64) == 1).
    { change 2 with (inject_Z 2). rewrite <- !qpow_add by lia. unfold s. replace (- (ue + ce + 64) + (ue + ce + 64))%Z with 0%Z by lia. reflexivity. }
    assert (Pu : 0 < 2 ^ ue) by (apply (qpow_pos 2 ue); lia). assert (Pc : 0 < 2 ^ ce) by (apply (qpow_pos 2 ce); lia). assert (Ps : 0 < 2 ^ s) by (apply (qpow_pos 2 s); lia).
    assert (Pk : 0 < 10 ^ k) by (apply (qpow_pos 10 k); lia).
    assert (EK : 10 ^ kappa == 10 ^ (kappa - k) * 10 ^ k).
    { change 10 with (inject_Z 10). rewrite <- qpow_add by lia. replace (kappa - k + k)%Z with kappa by lia. reflexivity. }
    assert (UB : inject_Z U < 2 ^ 64) by (change (2 ^ 64) with (inject_Z (2 ^ 64)); rewrite <- Zlt_Qlt; lia).
    assert (LB : inject_Z L < 2 ^ 64) by (change (2 ^ 64) with (inject_Z (2 ^ 64)); rewrite <- Zlt_Qlt; lia).
    assert (U0 : 0 <= inject_Z U) by (change 0 with (inject_Z 0); rewrite <- Zle_Qle; lia).
    assert (L0 : 0 <= inject_Z L) by (change 0 with (inject_Z 0); rewrite <- Zle_Qle; lia).
    change (inject_Z (2 ^ 64)) with (2 ^ 64) in *. assert (E63 : inject_Z (2 ^ 63) == (2 ^ 64) * (1 # 2)) by reflexivity. rewrite E63 in HN, HLo. clear E63.
    set (W := 2 ^ 64) in *. assert (PW : 0 < W) by reflexivity. clearbody W.
    set (A := 2 ^ ue) in *. set (B := 2 ^ ce) in *. set (S := 2 ^ s) in *. set (X := 10 ^ (kappa - k)) in *. set (Y := 10 ^ k) in *. rewrite EK in HD1, HD2. clearbody A B S X Y T. clear EK.
    set (u := inject_Z U) in *. set (l := inject_Z L) in *. set (x := inject_Z D) in *. set (n := inject_Z N) in *. set (o := inject_Z Lo) in *. set (q := inject_Z c) in *. clearbody u l x n o q. clear HU HL Hp Hs.
    (* the digits, without the common factors *)
    assert (D1 : o <= x * (X * Y) * S).
    { apply (Qmult_le_l _ _ T PT). setoid_replace (T * (x * (X * Y) * S)) with (x * (X * Y * T) * S) by ring. exact HD1. }
    assert (D2 : x * (X * Y) * S <= n).
    { apply (Qmult_le_l _ _ T PT). setoid_replace (T * (x * (X * Y) * S)) with (x * (X * Y * T) * S) by ring. exact HD2. }
    assert (PAB : 0 < A * B * W) by (repeat apply Qmult_lt_0_compat; assumption).
    assert (D1' : o * (A * B * W) <= x * X * Y).
    { apply (Qmult_le_r _ _ (A * B * W) PAB) in D1. setoid_replace (x * (X * Y) * S * (A * B * W)) with (x * X * Y * (S * (A * B * W))) in D1 by ring. rewrite ES, Qmult_1_r in D1. exact D1. }
    assert (D2' : x * X * Y <= n * (A * B * W)).
    { apply (Qmult_le_r _ _ (A * B * W) PAB) in D2. setoid_replace (x * (X * Y) * S * (A * B * W)) with (x * X * Y * (S * (A * B * W))) in D2 by ring. rewrite ES, Qmult_1_r in D2. exact D2. }
    clear D1 D2 HD1 HD2 ES.
    assert (PB : 0 < A * B) by (apply Qmult_lt_0_compat; assumption).
    split; apply (Qmult_lt_r _ _ Y Pk).
    - setoid_replace (l * A * Y) with (A * (l * Y)) by ring.
      apply Qlt_le_trans with (o * (A * B * W)); [|exact D1'].
      assert (S1 : (l * q + W * (1 # 2)) * (A * B) < o * (A * B * W)).
      { setoid_replace (o * (A * B * W)) with (W * o * (A * B)) by ring. apply Qmult_lt_r; [exact PB|exact HLo]. }
      assert (S2 : A * (l * Y) <= A * (l * (q * B) + l * (B * (1 # 2)))).
      { apply Qmult_le_l; [exact Pu|]. setoid_replace (l * (q * B) + l * (B * (1 # 2))) with (l * (q * B + B * (1 # 2))) by ring.
        destruct (Qlt_le_dec 0 l) as [Gl|Gl]; [apply Qmult_le_l; [exact Gl|lra]|]. setoid_replace l with 0 by (apply Qle_antisym; assumption). rewrite !Qmult_0_l. apply Qle_refl. }
      assert (S3 : A * (l * (B * (1 # 2))) <= A * (W * (B * (1 # 2)))).
      { apply Qmult_le_l; [exact Pu|]. apply Qmult_le_r; [lra|lra]. }
      setoid_replace (A * (l * (q * B) + l * (B * (1 # 2)))) with (l * q * (A * B) + A * (l * (B * (1 # 2)))) in S2 by ring.
      setoid_replace ((l * q + W * (1 # 2)) * (A * B)) with (l * q * (A * B) + A * (W * (B * (1 # 2)))) in S1 by ring. lra.
    - setoid_replace (u * A * Y) with (A * (u * Y)) by ring.
      apply Qle_lt_trans with (n * (A * B * W)); [exact D2'|].
      assert (S1 : n * (A * B * W) <= (u * q - W * (1 # 2)) * (A * B)).
      { setoid_replace (n * (A * B * W)) with (W * n * (A * B)) by ring. apply Qmult_le_r; [exact PB|]. lra. }
      assert (S2 : A * (u * (q * B) - u * (B * (1 # 2))) <= A * (u * Y)).
      { apply Qmult_le_l; [exact Pu|]. setoid_replace (u * (q * B) - u * (B * (1 # 2))) with (u * (q * B - B * (1 # 2))) by ring.
        destruct (Qlt_le_dec 0 u) as [Gu|Gu]; [apply Qmult_le_l; [exact Gu|lra]|]. setoid_replace u with 0 by (apply Qle_antisym; assumption). rewrite !Qmult_0_l. apply Qle_refl. }
      assert (S3 : A * (u * (B * (1 # 2))) < A * (W * (B * (1 # 2)))).
      { apply Qmult_lt_l; [exact Pu|]. apply Qmult_lt_r; [lra|exact UB]. }
      setoid_replace (A * (u * (q * B) - u * (B * (1 # 2)))) with (u * q * (A * B) - A * (u * (B * (1 # 2)))) in S2 by ring.
      setoid_replace ((u * q - W * (1 # 2)) * (A * B)) with (u * q * (A * B) - A * (W * (B * (1 # 2)))) in S1 by ring. lra.
  Qed.
End Core.

Lemma multiply_bounds x c : 0 <= x < 2 ^ 64 -> 0 <= c < 2 ^ 64 -> forall ex ec,
  let r := frac (multiply (Fp x ex) (Fp c ec)) in
  0 <= r < 2 ^ 64 /\ 2 ^ 64 * r <= x * c + 2 ^ 63 < 2 ^ 64 * r + 2 ^ 64.
Proof.
  intros Hx Hc ex ec r. unfold r. rewrite multiply_frac by (cbn [frac]; lia). cbn [frac]. clear r ex ec.
  assert (P : 0 <= x * c <= (2 ^ 64 - 1) * (2 ^ 64 - 1)) by nia. set (y := x * c) in *. clearbody y.
  pose proof (Z.div_mod (y + 2 ^ 63) (2 ^ 64) ltac:(lia)) as D. pose proof (Z.mod_pos_bound (y + 2 ^ 63) (2 ^ 64) ltac:(lia)) as B.
  set (r := (y + 2 ^ 63) / 2 ^ 64) in *. clearbody r. lia.
Qed.
Lemma grisu_spec bits f e : build_fp bits = Fp f e -> 0 < f < 2 ^ 53 -> -1074 <= e <= 971 ->
  exists ds K, grisu2 bits = Ok (rev ds, K) /\ Forall dig ds /\ lead ds /\ (1 <= List.length ds <= 17)%nat /\ -400 <= K <= 400 /\
  (inject_Z (low_bound f) * 2 ^ (e - up f - 11) < inject_Z (dnum ds) * 10 ^ K)%Q /\
  (inject_Z (dnum ds) * 10 ^ K < inject_Z (high_bound f) * 2 ^ (e - up f - 11))%Q.
Proof.
  intros Eb Hf He. destruct (up_range f Hf) as (Hu & _). destruct (bounds_range f Hf) as (B1 & B2 & B3 & B4 & B5).
  unfold grisu2. cbv zeta. rewrite Eb, boundaries_spec, normalize_spec by exact Hf. cbn [bind]. set (ue := e - up f - 11) in *. cbn [fexp].
  destruct (cached ue ltac:(unfold ue; lia)) as (p & k & E & Hp & Hr & Hk). rewrite E. cbn [bind]. clear E.
  destruct p as [c ce]. cbn [fexp] in Hr. assert (Hc : 2 ^ 63 <= c < 2 ^ 64).
  { unfold power_ok in Hp. cbn [frac] in Hp. apply andb_true_iff in Hp as [Hp _]. apply andb_true_iff in Hp as [H1 H2]. lia. }
  set (U := high_bound f) in *. set (L := low_bound f) in *. set (w := multiply (Fp (f * 2 ^ (up f + 11)) _) _). clearbody w U L. clear Eb bits.
  destruct (multiply_bounds U c ltac:(lia) ltac:(lia) ue ce) as [U1 U2]. destruct (multiply_bounds L c ltac:(lia) ltac:(lia) ue ce) as [L1 L2].
  assert (EU : fexp (multiply (Fp U ue) (Fp c ce)) = ue + ce + 64) by reflexivity. assert (EL : fexp (multiply (Fp L ue) (Fp c ce)) = ue + ce + 64) by reflexivity.
  set (MU := multiply (Fp U ue) (Fp c ce)) in *. set (ML := multiply (Fp L ue) (Fp c ce)) in *. clearbody MU ML. rewrite EU, EL. set (u := frac MU) in *. set (l := frac ML) in *. clearbody u l. clear MU ML EU EL.
  assert (W1 : 1536 * c <= (U - L) * c) by (apply Z.mul_le_mono_nonneg_r; lia).
  assert (W2 : U * c <= 2 ^ 53 * ((U - L) * c)) by (rewrite Z.mul_assoc; apply Z.mul_le_mono_nonneg_r; lia).
  assert (W3 : (U - L) * c = U * c - L * c) by ring. assert (W4 : 2 ^ 62 * 2 ^ 63 <= L * c) by (apply Z.mul_le_mono_nonneg; lia).
  set (Uc := U * c) in *. set (Lc := L * c) in *. rewrite W3 in W1, W2. assert (W5 : 2 ^ 63 <= c) by lia. 
  assert (G1 : 2 ^ 61 <= l) by lia. assert (G2 : l + 2 < u) by lia. assert (G3 : u - 1 <= 10 ^ 16 * (u - 1 - (l + 1))) by lia.
  rewrite (w64_id (l + 1)), (w64_id (u - 1)) by lia.
  destruct (generate_spec w (Fp (u - 1) (ue + ce + 64)) (Fp (l + 1) (ue + ce + 64))) as (ds & kappa & Eg & F & Ld & Hkap & Ln & D); cbn [frac fexp] in *; [lia|lia|lia|lia|exact G3|].
  rewrite Eg. cbn [bind]. exists ds, (- k + kappa). split; [reflexivity|]. split; [exact F|]. split; [exact Ld|]. split.
  { split; [|exact Ln]. destruct ds; [|cbn; lia]. exfalso. cbn [dnum] in D. assert (0 < 10 ^ pos (- kappa) * (l + 1)); [|lia]. apply Z.mul_pos_pos; [apply Z.pow_pos_nonneg; unfold pos; lia|lia]. }
  split; [lia|]. replace (- k + kappa) with (kappa - k) by lia.
  apply (interval U L c (dnum ds) (u - 1) (l + 1) ue ce k kappa); [lia|lia|exact Hp|lia|lia|exact D|lia].
Qed.

(** ** The doubles around a double *)
Definition mant (b : Z) : Z := if (b / 2 ^ 52) mod 2 ^ 11 =? 0 then b mod 2 ^ 52 else 2 ^ 52 + b mod 2 ^ 52.
Definition expo (b : Z) : Z := Z.max ((b / 2 ^ 52) mod 2 ^ 11) 1 - 1075.
Definition sgn (b : Z) : Z := if b <? 2 ^ 63 then 1 else -1.
(** In units of 2^-1074 *)
Definition units (b : Z) : Z := mant b * 2 ^ (expo b + 1074).
Lemma mant_expo b : finite b -> 0 <= mant b < 2 ^ 53 /\ -1074 <= expo b <= 971 /\ (2 ^ 52 <= mant b \/ expo b = -1074).
Proof.
  intros [H N]. unfold mant, expo. pose proof (Z.mod_pos_bound (b / 2 ^ 52) (2 ^ 11) ltac:(lia)) as E. pose proof (Z.mod_pos_bound b (2 ^ 52) ltac:(lia)) as F.
  set (e := (b / 2 ^ 52) mod 2 ^ 11) in *. set (f := b mod 2 ^ 52) in *. clearbody e f. destruct (Z.eqb_spec e 0); lia.
Qed.
Lemma build_mant b : build_fp b = Fp (mant b) (expo b).
Proof.
  unfold build_fp, mant, expo, expbias, hiddenbit. cbv zeta. pose proof (Z.mod_pos_bound (b / 2 ^ 52) (2 ^ 11) ltac:(lia)) as E. pose proof (Z.mod_pos_bound b (2 ^ 52) ltac:(lia)) as F.
  set (e := (b / 2 ^ 52) mod 2 ^ 11) in *. set (f := b mod 2 ^ 52) in *. clearbody e f. destruct (Z.eqb_spec e 0) as [->|N]; cbn [negb].
  - reflexivity.
  - rewrite w64_id by lia. rewrite Z.max_l by lia. f_equal; lia.
Qed.
Lemma value_units b : finite b -> (double_value b == inject_Z (sgn b * units b) * 2 ^ (-1074))%Q.
Proof.
  intros F. destruct (mant_expo b F) as (_ & E & _). unfold double_value, sgn, units. cbv zeta. fold (mant b). fold (expo b).
  assert (X : (inject_Z (mant b) * 2 ^ expo b == inject_Z (mant b * 2 ^ (expo b + 1074)) * 2 ^ (-1074))%Q).
  { rewrite inject_Z_mult. rewrite (qpow_Z 2 (expo b + 1074)) by lia. rewrite <- Qmult_assoc. rewrite <- (qpow_add 2) by lia. replace (expo b + 1074 + -1074) with (expo b) by lia. reflexivity. }
  destruct (b <? 2 ^ 63); [rewrite Z.mul_1_l; exact X|]. rewrite X. rewrite !inject_Z_mult. change (inject_Z (-1)) with (-(1))%Q. ring.
Qed.
Lemma units_gap b b' : finite b -> finite b' -> 0 < mant b ->
  let E := 2 ^ (expo b + 1074) in
  (units b < units b' -> units b + E <= units b') /\
  (units b' < units b -> if mant b =? 2 ^ 52 then 2 * units b' + E <= 2 * units b else units b' + E <= units b).
Proof.
  intros F F' Hm E. destruct (mant_expo b F) as (M & Ex & C). destruct (mant_expo b' F') as (M' & Ex' & C'). unfold units, E. clear E.
  set (m := mant b) in *. set (m' := mant b') in *. set (e := expo b + 1074). set (e' := expo b' + 1074). assert (H : 0 <= e /\ 0 <= e' /\ (2 ^ 52 <= m \/ e = 0) /\ (2 ^ 52 <= m' \/ e' = 0)) by (unfold e, e'; lia).
  clearbody m m' e e'. clear F F' Ex Ex' C C'. destruct H as (He & He' & C & C').
  destruct (Z_le_gt_dec e e') as [L|L].
  - (* a multiple of the unit *)
    replace e' with (e + (e' - e)) by lia. rewrite Z.pow_add_r by lia. set (p := 2 ^ (e' - e)). set (E := 2 ^ e). assert (0 < E) by (apply Z.pow_pos_nonneg; lia).
    replace (m' * (E * p)) with (m' * p * E) by ring. set (k := m' * p). clearbody k E p. split; intros G; apply Z.mul_lt_mono_pos_r in G; try lia.
    + replace (m * E + E) with ((m + 1) * E) by ring. apply Z.mul_le_mono_nonneg_r; lia.
    + assert (X : (k + 1) * E <= m * E) by (apply Z.mul_le_mono_nonneg_r; lia). destruct (Z.eqb_spec m (2 ^ 52)); lia.
  - (* a smaller unit *)
    assert (Cm : 2 ^ 52 <= m) by lia. replace e with (e' + 1 + (e - e' - 1)) by lia. rewrite Z.pow_add_r, Z.pow_add_r by lia. set (p := 2 ^ (e - e' - 1)). set (E := 2 ^ e').
    assert (0 < E) by (apply Z.pow_pos_nonneg; lia). assert (1 <= p) by (apply Z.lt_pred_le, Z.pow_pos_nonneg; lia). change (2 ^ 1) with 2. clearbody p E.
    assert (m' * E + E <= 2 ^ 53 * E) by nia. assert (X : 2 ^ 52 * (E * 2) <= m * (E * 2)) by nia. assert (Y : m * (E * 2) <= m * (E * 2 * p)) by nia.
    split; intros G; [lia|]. destruct (Z.eqb_spec m (2 ^ 52)) as [->|N].
    + replace (E * 2 * p) with (2 * (E * p)) by ring. assert (E <= E * p) by nia. 
      assert (Z1 : 2 ^ 53 * E - E <= 2 ^ 53 * (E * p) - E * p) by nia. lia.
    + assert (Z1 : (2 ^ 52 + 1) * (E * 2 * p) <= m * (E * 2 * p)) by nia. assert (E <= E * p) by nia. lia.
Qed.

(** The distance to [q] is smallest for [x]. *)
Lemma closer (x y q : Q) : (x < y -> 2 * q < x + y)%Q -> (y < x -> x + y < 2 * q)%Q -> (y == x)%Q \/ (Qabs (q - x) < Qabs (q - y))%Q.
Proof.
  intros H1 H2. destruct (Q_dec y x) as [[L|L]|L]; [right|right|left; exact L].
  - specialize (H2 L). apply Qabs_case; intros A; apply Qabs_case; intros B; lra.
  - specialize (H1 L). apply Qabs_case; intros A; apply Qabs_case; intros B; lra.
Qed.
Lemma signed_gap b b' s : finite b -> finite b' -> 0 < mant b -> s = 1 \/ s = -1 ->
  let E := 2 ^ (expo b + 1074) in let y := s * units b' in
  (units b < y -> units b + E <= y) /\
  (y < units b -> if mant b =? 2 ^ 52 then 2 * y + E <= 2 * units b else y + E <= units b).
Proof.
  intros F F' Hm Hs E y. destruct (units_gap b b' F F' Hm) as [G1 G2]. fold E in G1, G2. destruct (mant_expo b F) as (_ & Ex & _). destruct (mant_expo b' F') as (M' & Ex' & _).
  assert (EM : E <= units b). { unfold units. fold E. assert (0 < E) by (apply Z.pow_pos_nonneg; lia). nia. }
  assert (U' : 0 <= units b') by (unfold units; apply Z.mul_nonneg_nonneg; [lia|apply Z.pow_nonneg; lia]).
  assert (0 < E) by (apply Z.pow_pos_nonneg; lia).
  destruct Hs as [->| ->]; unfold y; [rewrite Z.mul_1_l; auto|]. split; [lia|]. intros _. destruct (mant b =? 2 ^ 52); lia.
Qed.
Lemma bounds_units b : finite b -> 0 < mant b ->
  let E := 2 ^ (expo b + 1074) in
  (inject_Z (high_bound (mant b)) * 2 ^ (expo b - up (mant b) - 11) == (inject_Z (units b) + inject_Z E * (1 # 2)) * 2 ^ (-1074))%Q /\
  (inject_Z (low_bound (mant b)) * 2 ^ (expo b - up (mant b) - 11) == (inject_Z (units b) - inject_Z E * (if (mant b =? 2 ^ 52)%Z then 1 # 4 else 1 # 2)) * 2 ^ (-1074))%Q.
Proof.
  intros F Hm E. destruct (mant_expo b F) as (M & Ex & _). destruct (up_range (mant b) ltac:(lia)) as (Hu & _).
  unfold units, high_bound, low_bound, E. set (m := mant b) in *. set (e := expo b) in *. set (n := up m) in *. clearbody m e n.
  assert (X : forall j, 0 <= j -> j <= 11 -> (inject_Z (2 ^ (n + j)) * 2 ^ (e - n - 11) == inject_Z (2 ^ (e + 1074)) * 2 ^ (- (11 - j)) * 2 ^ (-1074))%Q).
  { intros j Hj Hj'. rewrite (qpow_Z 2 (n + j)), (qpow_Z 2 (e + 1074)) by lia. change 2%Q with (inject_Z 2). rewrite <- !qpow_add by lia. replace (n + j + (e - n - 11)) with (e + 1074 + - (11 - j) + -1074) by lia. reflexivity. }
  assert (A : forall k j, 0 <= j -> j <= 11 -> (inject_Z (k * 2 ^ (n + j)) * 2 ^ (e - n - 11) == inject_Z k * inject_Z (2 ^ (e + 1074)) * 2 ^ (- (11 - j)) * 2 ^ (-1074))%Q).
  { intros k j Hj Hj'. rewrite inject_Z_mult. rewrite <- Qmult_assoc, X by assumption. ring. }
  split.
  - rewrite A by lia. rewrite !inject_Z_mult. rewrite inject_Z_plus, inject_Z_mult. change (inject_Z 2) with 2%Q. change (inject_Z 1) with 1%Q. change (2 ^ (- (11 - 10)))%Q with (1 # 2)%Q. ring.
  - destruct (m =? 2 ^ 52).
    + rewrite A by lia. rewrite !inject_Z_mult. unfold Z.sub. rewrite inject_Z_plus, inject_Z_mult, inject_Z_opp. change (inject_Z 4) with 4%Q. change (inject_Z 1) with 1%Q. change (2 ^ (- (11 + - (9))))%Q with (1 # 4)%Q. ring.
    + rewrite A by lia. rewrite !inject_Z_mult. unfold Z.sub. rewrite inject_Z_plus, inject_Z_mult, inject_Z_opp. change (inject_Z 2) with 2%Q. change (inject_Z 1) with 1%Q. change (2 ^ (- (11 + - (10))))%Q with (1 # 2)%Q. ring.
Qed.
Lemma interval_nearest b q : finite b -> 0 < mant b ->
  (inject_Z (low_bound (mant b)) * 2 ^ (expo b - up (mant b) - 11) < q)%Q -> (q < inject_Z (high_bound (mant b)) * 2 ^ (expo b - up (mant b) - 11))%Q ->
  nearest doubles (double_value b) (inject_Z (sgn b) * q).
Proof.
  intros F Hm Lo Hi y (b' & F' & Ey). rewrite Ey. clear y Ey. rewrite (value_units b F), (value_units b' F').
  destruct (bounds_units b F Hm) as [HB LB]. rewrite HB in Hi. rewrite LB in Lo. clear HB LB. cbv zeta in Hi, Lo.
  assert (Hs : sgn b * sgn b' = 1 \/ sgn b * sgn b' = -1) by (unfold sgn; destruct (b <? 2 ^ 63), (b' <? 2 ^ 63); auto).
  destruct (signed_gap b b' (sgn b * sgn b') F F' Hm Hs) as [G1 G2]. cbv zeta in G1, G2.
  assert (Eb : sgn b' = sgn b * (sgn b * sgn b')) by (unfold sgn; destruct (b <? 2 ^ 63), (b' <? 2 ^ 63); reflexivity).
  assert (Sb : (inject_Z (sgn b) == 1 \/ inject_Z (sgn b) == - (1))%Q) by (unfold sgn; destruct (b <? 2 ^ 63); [left|right]; reflexivity).
  rewrite Eb. rewrite <- Z.mul_assoc. set (y := sgn b * sgn b' * units b') in *. set (E := 2 ^ (expo b + 1074)) in *. set (M := units b) in *. clearbody y E M.
  rewrite !(inject_Z_mult (sgn b)). set (h := (2 ^ (-1074))%Q) in *. assert (Ph : (0 < h)%Q) by (apply (qpow_pos 2); lia). clearbody h.
  assert (K : (inject_Z y * h == inject_Z M * h)%Q \/ (Qabs (q - inject_Z M * h) < Qabs (q - inject_Z y * h))%Q).
  { apply closer.
    - intros L. apply Qmult_lt_r in L; [|exact Ph]. rewrite <- Zlt_Qlt in L. specialize (G1 L). rewrite Zle_Qle, inject_Z_plus in G1.
      apply (Qmult_le_r _ _ h Ph) in G1. rewrite Qmult_plus_distr_l in *. lra.
    - intros L. apply Qmult_lt_r in L; [|exact Ph]. rewrite <- Zlt_Qlt in L. specialize (G2 L). destruct (mant b =? 2 ^ 52).
      + rewrite Zle_Qle, inject_Z_plus, !inject_Z_mult in G2. change (inject_Z 2) with 2%Q in G2. apply (Qmult_le_r _ _ h Ph) in G2.
        setoid_replace ((2 * inject_Z y + inject_Z E) * h)%Q with (2 * (inject_Z y * h) + inject_Z E * h)%Q in G2 by ring. setoid_replace (2 * inject_Z M * h)%Q with (2 * (inject_Z M * h))%Q in G2 by ring.
        setoid_replace ((inject_Z M - inject_Z E * (1 # 4)) * h)%Q with (inject_Z M * h - (1 # 4) * (inject_Z E * h))%Q in Lo by ring. lra.
      + rewrite Zle_Qle, inject_Z_plus in G2. apply (Qmult_le_r _ _ h Ph) in G2.
        setoid_replace ((inject_Z y + inject_Z E) * h)%Q with (inject_Z y * h + inject_Z E * h)%Q in G2 by ring.
        setoid_replace ((inject_Z M - inject_Z E * (1 # 2)) * h)%Q with (inject_Z M * h - (1 # 2) * (inject_Z E * h))%Q in Lo by ring. lra. }
  destruct Sb as [->| ->]; destruct K as [K|K].
  - left. rewrite !Qmult_1_l. exact K.
  - right. rewrite !Qmult_1_l. exact K.
  - left. rewrite <- !Qmult_assoc, K. reflexivity.
  - right. rewrite <- (Qabs_opp (q - _)) in K. rewrite <- (Qabs_opp (q - inject_Z y * h)) in K.
    setoid_replace (- (1) * q - - (1) * inject_Z M * h)%Q with (- (q - inject_Z M * h))%Q by ring. setoid_replace (- (1) * q - - (1) * inject_Z y * h)%Q with (- (q - inject_Z y * h))%Q by ring. exact K.
Qed.
