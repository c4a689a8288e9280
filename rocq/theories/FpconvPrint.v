(** * FpconvPrint: what fpconv_dtoa writes (proofs for C51) *)
From Coq Require Import QArith Qabs Qpower Lqa.
From Verif Require Import Base Json JsonSpec Fpconv FpconvFacts FpconvSpec FpconvReal FpconvText.
Open Scope Z_scope.

Lemma zero_mant b : finite b -> (b mod 2 ^ 63 =? 0) = (mant b =? 0).
Proof.
  intros [H _]. unfold mant. pose proof (Z.div_mod b (2 ^ 52) ltac:(lia)) as D. pose proof (Z.mod_pos_bound b (2 ^ 52) ltac:(lia)) as B.
  pose proof (Z.div_mod (b / 2 ^ 52) (2 ^ 11) ltac:(lia)) as D2. pose proof (Z.mod_pos_bound (b / 2 ^ 52) (2 ^ 11) ltac:(lia)) as B2.
  set (f := b mod 2 ^ 52) in *. set (x := b / 2 ^ 52) in *. set (e := x mod 2 ^ 11) in *. set (s := x / 2 ^ 11) in *. clearbody s e f x.
  assert (M : b mod 2 ^ 63 = e * 2 ^ 52 + f). { symmetry. apply (Z.mod_unique_pos b (2 ^ 63) s); lia. }
  rewrite M. destruct (Z.eqb_spec e 0) as [->|N]; [reflexivity|]. destruct (Z.eqb_spec (e * 2 ^ 52 + f) 0), (Z.eqb_spec (2 ^ 52 + f) 0); try reflexivity; lia.
Qed.
Lemma sign_bit b : finite b -> negb (b / 2 ^ 63 =? 0) = negb (b <? 2 ^ 63).
Proof.
  intros [H _]. f_equal. destruct (Z.ltb_spec b (2 ^ 63)) as [L|L].
  - rewrite Z.div_small by lia. reflexivity.
  - apply Z.eqb_neq. assert (1 <= b / 2 ^ 63) by (apply Z.div_le_lower_bound; lia). lia.
Qed.

Lemma qpow_le x a b : 0 < x -> a <= b -> (inject_Z x ^ a <= inject_Z x ^ b)%Q.
Proof.
  intros H L. replace b with (a + (b - a)) by lia. rewrite qpow_add by lia. pose proof (qpow_pos x a H) as P. rewrite <- (Qmult_1_r (inject_Z x ^ a)) at 1.
  apply Qmult_le_l; [exact P|]. rewrite <- qpow_Z by lia. change 1%Q with (inject_Z 1). rewrite <- Zle_Qle. pose proof (Z.pow_pos_nonneg x (b - a)). lia.
Qed.
Lemma dtoa_digits b : finite b -> 0 < mant b -> exists c r K, let q := (inject_Z (digits_val (c :: r)) * 10 ^ K)%Q in
  grisu2 b = Ok (c :: r, K) /\ 49 <= c <= 57 /\ digits r /\ (List.length (c :: r) <= 17)%nat /\ -400 <= K <= 400 /\ K + Z.of_nat (List.length (c :: r)) - 1 <= 308 /\
  10 ^ (Z.of_nat (List.length (c :: r)) - 1) <= digits_val (c :: r) < 10 ^ Z.of_nat (List.length (c :: r)) /\
  (inject_Z (low_bound (mant b)) * 2 ^ (expo b - up (mant b) - 11) < q)%Q /\ (q < inject_Z (high_bound (mant b)) * 2 ^ (expo b - up (mant b) - 11))%Q.
Proof.
  intros F Hm. destruct (mant_expo b F) as (M & Ex & _). destruct (grisu_spec b (mant b) (expo b) (build_mant b) ltac:(lia) Ex) as (ds & K & G & Fd & Ld & Ln & HK & Lo & Hi).
  assert (Nd : ds <> []) by (intros ->; cbn [List.length] in Ln; lia).
  destruct (rev_lead ds Fd Ld Nd) as (c & r & E & Hc & Hr). exists c, r, K. cbv zeta. rewrite <- E, digits_val_rev, rev_length. repeat (split; [assumption||lia|]).
  pose proof (dnum_lead ds Fd Ld Nd) as DL. pose proof (dnum_range ds Fd) as DR. split; [|split; [split; [exact DL|lia]|split; assumption]].
  destruct (up_range (mant b) ltac:(lia)) as (Hu & _). destruct (bounds_range (mant b) ltac:(lia)) as (_ & B4 & _).
  set (n := Z.of_nat (List.length ds)) in *. assert (Hn : 1 <= n) by (unfold n; lia). destruct (Z_le_gt_dec (K + n - 1) 308) as [|C]; [assumption|exfalso].
  assert (T : (inject_Z (10 ^ 309) <= inject_Z (dnum ds) * 10 ^ K)%Q).
  { apply (Qle_trans _ (inject_Z 10 ^ (K + n - 1))).
    - rewrite <- qpow_Z by lia. rewrite <- Zle_Qle. apply Z.pow_le_mono_r; lia.
    - replace (K + n - 1) with ((n - 1) + K) by lia. rewrite qpow_add by lia. apply Qmult_le_compat_r; [|apply Qlt_le_weak, (qpow_pos 10); lia]. rewrite <- qpow_Z by lia. rewrite <- Zle_Qle. exact DL. }
  assert (U : (inject_Z (high_bound (mant b)) * 2 ^ (expo b - up (mant b) - 11) <= inject_Z (2 ^ 1024))%Q).
  { apply (Qle_trans _ (inject_Z (2 ^ 64) * inject_Z 2 ^ (expo b - up (mant b) - 11))).
    - apply Qmult_le_compat_r; [|apply Qlt_le_weak, (qpow_pos 2); lia]. rewrite <- Zle_Qle. lia.
    - rewrite (qpow_Z 2 64) by lia. rewrite <- qpow_add by lia. rewrite (qpow_Z 2 1024) by lia. apply qpow_le; lia. }
  assert (X : (inject_Z (10 ^ 309) < inject_Z (2 ^ 1024))%Q) by lra. rewrite <- Zlt_Qlt in X. revert X. vm_compute. discriminate.
Qed.

(** ** The outcome *)
Definition neg_of (b : Z) : bytes := if b <? 2 ^ 63 then [] else [45].
Lemma neg_of_eq b : finite b -> (if negb (b / 2 ^ 63 =? 0) then [45] else []) = neg_of b.
Proof. intros F. rewrite sign_bit by exact F. unfold neg_of. destruct (b <? 2 ^ 63); reflexivity. Qed.
Lemma special_none b : finite b -> 0 < mant b -> filter_special b = [].
Proof.
  intros F H. unfold filter_special. rewrite zero_mant by exact F. destruct (Z.eqb_spec (mant b) 0); [lia|]. destruct F as [_ N]. change (2 ^ 11 - 1) with 2047.
  destruct (Z.eqb_spec ((b / 2 ^ 52) mod 2 ^ 11) 2047); [contradiction|]. reflexivity.
Qed.
Lemma signed_parts b t dg K : claim t dg K -> exists i f e, number_parts (neg_of b ++ t) (neg_of b) i f e /\ exponent_fits i f e /\
  (number_value (neg_of b) i f e == inject_Z (sgn b) * (inject_Z (digits_val dg) * 10 ^ K))%Q.
Proof.
  intros (i & f & e & (E & _ & I1 & I2 & I3) & X & V). exists i, f, e. cbn [app] in E. split; [|split; [exact X|]].
  - split; [now rewrite E|]. split; [unfold neg_of; destruct (b <? 2 ^ 63); auto|]. auto.
  - rewrite <- V. unfold neg_of, sgn, number_value. destruct (b <? 2 ^ 63); [change (inject_Z 1) with 1%Q|change (inject_Z (-1)) with (-(1))%Q]; ring.
Qed.
Definition good (b : Z) (t : bytes) (n K : Z) : Prop :=
  (List.length t <= 24)%nat /\ 0 <= n < 10 ^ 17 /\ -400 <= K <= 400 /\ exists i f e, let q := (inject_Z (sgn b) * (inject_Z n * 10 ^ K))%Q in
  number_parts t (neg_of b) i f e /\ exponent_fits i f e /\ (number_value (neg_of b) i f e == q)%Q /\ nearest doubles (double_value b) q.
Lemma zero_nearest b : finite b -> mant b = 0 -> nearest doubles (double_value b) (inject_Z (sgn b) * (inject_Z 0 * 10 ^ 0)).
Proof.
  intros F H y (b' & F' & Ey). assert (Z0 : (double_value b == 0)%Q). { rewrite value_units by exact F. unfold units. rewrite H, Z.mul_0_l, Z.mul_0_r. change (inject_Z 0) with 0%Q. ring. }
  rewrite Z0. destruct (Qeq_dec y 0) as [Y|Y]; [left; exact Y|right]. change (inject_Z 0 * 10 ^ 0)%Q with (0 * 1)%Q. 
  setoid_replace (inject_Z (sgn b) * (0 * 1) - 0)%Q with 0%Q by ring. setoid_replace (inject_Z (sgn b) * (0 * 1) - y)%Q with (- y)%Q by ring. rewrite Qabs_opp. change (Qabs 0) with 0%Q.
  destruct (Q_dec y 0) as [[L|L]|L]; [|..|contradiction]; apply Qabs_case; intros; lra.
Qed.
Lemma dtoa_spec b : finite b ->
  match fpconv_dtoa b with
  | Ok t => exists n K, good b t n K
  | Err _ => False
  | Undef w => w = "buffer overflow"%string /\ 2 ^ 63 <= b /\ exists n, 10 ^ 16 <= n < 10 ^ 17 /\ 0 < mant b /\
      let q := (inject_Z n * 10 ^ 7)%Q in
      (inject_Z (low_bound (mant b)) * 2 ^ (expo b - up (mant b) - 11) < q)%Q /\ (q < inject_Z (high_bound (mant b)) * 2 ^ (expo b - up (mant b) - 11))%Q
  end.
Proof.
  intros F. unfold fpconv_dtoa. cbv zeta. rewrite neg_of_eq by exact F. destruct (mant_expo b F) as (M & _ & _).
  destruct (Z.eq_dec (mant b) 0) as [M0|M0].
  - unfold filter_special. rewrite zero_mant by exact F. rewrite M0, Z.eqb_refl. cbn [List.length Nat.eqb negb]. exists 0, 0. unfold good. split; [rewrite app_length; unfold neg_of; destruct (b <? 2 ^ 63); cbn [List.length]; lia|].
    split; [lia|]. split; [lia|]. exists [48], [], []. cbv zeta. split; [split; [reflexivity|]; split; [unfold neg_of; destruct (b <? 2 ^ 63); auto|]; split; [left; reflexivity|]; split; left; reflexivity|]. split; [apply noexp|]. split; [|apply zero_nearest; assumption].
    unfold neg_of, sgn, number_value. destruct (b <? 2 ^ 63); reflexivity.
  - rewrite special_none by (assumption || lia). cbn [List.length Nat.eqb negb]. destruct (dtoa_digits b F ltac:(lia)) as (c & r & K & G & Hc & Hr & Ln & HK & H3 & DR & Lo & Hi).
    rewrite G. cbn [bind]. destruct (emit_spec (c :: r) K (negb (b / 2 ^ 63 =? 0)) c r eq_refl Hc Hr Ln HK H3) as [Cl Len]. unfold emit_digits. cbv zeta. set (t := emit_text (c :: r) K _) in *. clearbody t.
    assert (Dn : 0 <= digits_val (c :: r) < 10 ^ 17).
    { assert (10 ^ Z.of_nat (List.length (c :: r)) <= 10 ^ 17) by (apply Z.pow_le_mono_r; lia). assert (0 <= 10 ^ (Z.of_nat (List.length (c :: r)) - 1)) by (apply Z.pow_nonneg; lia). lia. }
    destruct (Nat.leb_spec (List.length t) (24 - List.length (neg_of b))) as [L|L]; cbn [bind].
    + exists (digits_val (c :: r)), K. unfold good. split; [rewrite app_length; unfold neg_of in *; destruct (b <? 2 ^ 63); cbn [List.length] in *; lia|]. split; [exact Dn|]. split; [exact HK|].
      destruct (signed_parts b t (c :: r) K Cl) as (i & f & e & P & X & V). exists i, f, e. cbv zeta. split; [exact P|]. split; [exact X|]. split; [exact V|]. apply interval_nearest; [exact F|lia|exact Lo|exact Hi].
    + destruct Len as [Len|(L17 & -> & L24)]; [unfold neg_of in L; destruct (b <? 2 ^ 63); cbn [List.length] in L; lia|]. split; [reflexivity|].
      split; [unfold neg_of in L; destruct (Z.ltb_spec b (2 ^ 63)); cbn [List.length] in L; lia|]. exists (digits_val (c :: r)). rewrite L17 in DR. change (Z.of_nat 17 - 1) with 16 in DR. change (Z.of_nat 17) with 17 in DR.
      split; [exact DR|]. split; [lia|]. split; assumption.
Qed.

(** ** Where the buffer is too small *)
Lemma nearest_eq values x x' q q' : (x == x')%Q -> (q == q')%Q -> nearest values x q -> nearest values x' q'.
Proof. intros E1 E2 N y Y. destruct (N y Y) as [A|A]; [left|right]; [now rewrite <- E1|now rewrite <- E1, <- E2]. Qed.
Lemma a_double b v : finite b -> (double_value b == v)%Q -> doubles v.
Proof. intros F E. exists b. split; [exact F|]. now symmetry. Qed.
Lemma overflow_range b n : nearest doubles (double_value b) (- (inject_Z n * 10 ^ 7)) -> 10 ^ 16 <= n < 10 ^ 17 ->
  (- inject_Z (10 ^ 24) < double_value b)%Q /\ (double_value b < - inject_Z 99999999999999991611392)%Q.
Proof.
  intros N H. set (v := double_value b) in *. clearbody v.
  assert (E7 : (10 ^ 7 == inject_Z (10 ^ 7))%Q) by reflexivity. apply (nearest_eq doubles v v _ (- inject_Z (n * 10 ^ 7)) ltac:(reflexivity)) in N; [|rewrite inject_Z_mult, E7; reflexivity]. set (q := n * 10 ^ 7) in *.
  assert (Hq : 10 ^ 23 <= q <= 10 ^ 24 - 10 ^ 7) by lia. destruct Hq as [Q1 Q2]. rewrite Zle_Qle in Q1, Q2. set (x := inject_Z q) in *. clearbody x. clear E7 H q n.
  pose proof (N _ (a_double (2 ^ 63 + 4950912855330343670) (- inject_Z 99999999999999991611392) ltac:(split; vm_compute; intuition discriminate) ltac:(vm_compute; reflexivity))) as A1.
  pose proof (N _ (a_double (2 ^ 63 + 4950912855330343671) (- inject_Z 100000000000000008388608) ltac:(split; vm_compute; intuition discriminate) ltac:(vm_compute; reflexivity))) as A2.
  pose proof (N _ (a_double (2 ^ 63 + 4965913770331839924) (- inject_Z 999999999999999983222784) ltac:(split; vm_compute; intuition discriminate) ltac:(vm_compute; reflexivity))) as A3.
  assert (C1 : (inject_Z (10 ^ 23) == 100000000000000000000000)%Q) by reflexivity. assert (C2 : (inject_Z (10 ^ 24 - 10 ^ 7) == 999999999999999990000000)%Q) by reflexivity. assert (C3 : (inject_Z (10 ^ 24) == 1000000000000000000000000)%Q) by reflexivity.
  assert (D1 : (inject_Z 99999999999999991611392 == 99999999999999991611392)%Q) by reflexivity. assert (D2 : (inject_Z 100000000000000008388608 == 100000000000000008388608)%Q) by reflexivity. assert (D3 : (inject_Z 999999999999999983222784 == 999999999999999983222784)%Q) by reflexivity.
  rewrite C1 in Q1. rewrite C2 in Q2. rewrite C3, D1. rewrite D1 in A1. rewrite D2 in A2. rewrite D3 in A3. clear C1 C2 C3 D1 D2 D3 N.
  split.
  - destruct A3 as [A3|A3]; [lra|]. revert A3. apply Qabs_case; intros P1; apply Qabs_case; intros P2; intros; lra.
  - destruct A2 as [A2|A2]; [lra|]. destruct A1 as [A1|A1]; revert A2; [|revert A1; apply Qabs_case; intros P3]; apply Qabs_case; intros P1; apply Qabs_case; intros P2; intros; try lra.
    all: revert A1; apply Qabs_case; intros; lra.
Qed.

(** ** Floats as doubles *)
Lemma fields b s e f : b = s * 2 ^ 63 + e * 2 ^ 52 + f -> 0 <= s <= 1 -> 0 <= e < 2 ^ 11 -> 0 <= f < 2 ^ 52 ->
  0 <= b < 2 ^ 64 /\ (b / 2 ^ 52) mod 2 ^ 11 = e /\ b mod 2 ^ 52 = f /\ (b <? 2 ^ 63) = (s =? 0).
Proof.
  intros -> Hs He Hf. assert (D : (s * 2 ^ 63 + e * 2 ^ 52 + f) / 2 ^ 52 = s * 2 ^ 11 + e) by (symmetry; apply (Z.div_unique_pos _ _ _ f); lia).
  split; [lia|]. rewrite D. split; [symmetry; apply (Z.mod_unique_pos _ _ s); lia|]. split; [symmetry; apply (Z.mod_unique_pos _ _ (s * 2 ^ 11 + e)); lia|].
  destruct (Z.ltb_spec (s * 2 ^ 63 + e * 2 ^ 52 + f) (2 ^ 63)), (Z.eqb_spec s 0); try reflexivity; lia.
Qed.
Lemma widen_spec b : finite32 b -> finite (widen b) /\ (double_value (widen b) == float_value b)%Q /\ (widen b <? 2 ^ 63) = (b <? 2 ^ 31).
Proof.
  intros [H N]. unfold widen, float_value. cbv zeta.
  pose proof (Z.div_mod b (2 ^ 23) ltac:(lia)) as D. pose proof (Z.mod_pos_bound b (2 ^ 23) ltac:(lia)) as B.
  pose proof (Z.div_mod (b / 2 ^ 23) (2 ^ 8) ltac:(lia)) as D2. pose proof (Z.mod_pos_bound (b / 2 ^ 23) (2 ^ 8) ltac:(lia)) as B2.
  assert (Ds : b / 2 ^ 31 = b / 2 ^ 23 / 2 ^ 8) by (rewrite Z.div_div by lia; reflexivity). rewrite Ds.
  set (f := b mod 2 ^ 23) in *. set (x := b / 2 ^ 23) in *. set (e := x mod 2 ^ 8) in *. set (s := x / 2 ^ 8) in *. clearbody s e f x. clear Ds.
  assert (Hs : 0 <= s <= 1) by lia. assert (Sg : (b <? 2 ^ 31) = (s =? 0)) by (destruct (Z.ltb_spec b (2 ^ 31)), (Z.eqb_spec s 0); try reflexivity; lia). rewrite Sg. clear Sg D D2 H x b.
  destruct (Z.eqb_spec e 255) as [|_]; [contradiction|]. 
  assert (G : forall e' f' m, 0 <= e' < 2047 -> 0 <= f' < 2 ^ 52 -> (if e' =? 0 then f' else 2 ^ 52 + f') = m ->
     (inject_Z m * 2 ^ (Z.max e' 1 - 1075) == inject_Z (if e =? 0 then f else 2 ^ 23 + f) * 2 ^ (Z.max e 1 - 150))%Q ->
     finite (s * 2 ^ 63 + (e' * 2 ^ 52 + f')) /\
     (double_value (s * 2 ^ 63 + (e' * 2 ^ 52 + f')) == (if s =? 0 then inject_Z (if (e =? 0)%Z then f else (2 ^ 23 + f)%Z) * 2 ^ (Z.max e 1 - 150) else - (inject_Z (if (e =? 0)%Z then f else (2 ^ 23 + f)%Z) * 2 ^ (Z.max e 1 - 150))))%Q /\
     (s * 2 ^ 63 + (e' * 2 ^ 52 + f') <? 2 ^ 63) = (s =? 0)).
  { intros e' f' m He' Hf' Em V. destruct (fields (s * 2 ^ 63 + (e' * 2 ^ 52 + f')) s e' f' ltac:(lia) Hs ltac:(lia) Hf') as (R & E1 & E2 & E3). split; [split; [exact R|rewrite E1; lia]|]. split; [|exact E3].
    unfold double_value. cbv zeta. rewrite E1, E2, E3, Em. destruct (s =? 0); rewrite V; reflexivity. }
  assert (Sh : forall m k z, 0 <= k -> (inject_Z (m * 2 ^ k) * 2 ^ (z - k) == inject_Z m * 2 ^ z)%Q).
  { intros m k z Hk. rewrite inject_Z_mult, (qpow_Z 2 k) by lia. rewrite <- Qmult_assoc. change 2%Q with (inject_Z 2). rewrite <- qpow_add by lia. replace (k + (z - k)) with z by lia. reflexivity. }
  destruct (Z.eqb_spec e 0) as [E0|E0]; cbn [negb].
  - subst e. destruct (Z.eqb_spec f 0) as [F0|F0].
    + subst f. apply (G 0 0 0); [lia|lia|reflexivity|reflexivity].
    + destruct (Z.log2_spec f ltac:(lia)) as [L1 L2]. assert (Ln : 0 <= Z.log2 f <= 22). { split; [apply Z.log2_nonneg|]. apply Z.lt_succ_r. apply Z.log2_lt_pow2; lia. }
      set (n := Z.log2 f) in *. clearbody n. assert (P52 : 2 ^ 52 = 2 ^ n * 2 ^ (52 - n)) by (rewrite <- Z.pow_add_r by lia; f_equal; lia). assert (Pn : 0 < 2 ^ n) by (apply Z.pow_pos_nonneg; lia). assert (Pm : 0 < 2 ^ (52 - n)) by (apply Z.pow_pos_nonneg; lia).
      rewrite Z.pow_succ_r in L2 by lia.
      apply (G (n + 874) ((f - 2 ^ n) * 2 ^ (52 - n)) (f * 2 ^ (52 - n))); [lia| |destruct (Z.eqb_spec (n + 874) 0); [lia|]; rewrite P52; ring|].
      * split; [apply Z.mul_nonneg_nonneg; lia|]. rewrite P52. apply Z.mul_lt_mono_pos_r; lia.
      * rewrite Z.max_l by lia. change (Z.max 0 1 - 150) with (-149). replace (n + 874 - 1075) with (-149 - (52 - n)) by lia. apply Sh. lia.
  - apply (G (e + 896) (f * 2 ^ 29) ((2 ^ 23 + f) * 2 ^ 29)); [lia|lia|destruct (Z.eqb_spec (e + 896) 0); [lia|]; lia|].
    rewrite !Z.max_l by lia. replace (e + 896 - 1075) with (e - 150 - 29) by lia. apply Sh. lia.
Qed.
Lemma nearest_floats b q : finite32 b -> nearest doubles (double_value (widen b)) q -> nearest floats (float_value b) q.
Proof.
  intros F N. destruct (widen_spec b F) as (_ & E & _). apply (nearest_eq doubles _ _ q q E ltac:(reflexivity)) in N. intros y (b' & F' & Ey). apply N. destruct (widen_spec b' F') as (W & E' & _). exists (widen b'). split; [exact W|]. now rewrite E'.
Qed.
