(** * FpconvFacts: proofs about the float printer, in integers *)
From Verif Require Import Base Fpconv.

Lemma w64_id x : 0 <= x < 2 ^ 64 -> w64 x = x.
Proof. intros H. unfold w64. now apply Z.mod_small. Qed.
Lemma w64_range x : 0 <= w64 x < 2 ^ 64.
Proof. unfold w64. apply Z.mod_pos_bound. lia. Qed.
Lemma shl_ok x n : 0 <= n < 64 -> shl x n = Ok (w64 (x * 2 ^ n)).
Proof. intros H. unfold shl. destruct (Z.leb_spec 0 n); [|lia]. destruct (Z.ltb_spec n 64); [reflexivity|lia]. Qed.
Lemma shr_ok x n : 0 <= n < 64 -> shr x n = Ok (x / 2 ^ n).
Proof. intros H. unfold shr. destruct (Z.leb_spec 0 n); [|lia]. destruct (Z.ltb_spec n 64); [reflexivity|lia]. Qed.

(** ** Normalizing *)
Lemma shift_up_spec : forall fuel b x, 0 < frac x < 2 ^ (b + 1) -> 0 <= b < 63 -> b - Z.log2 (frac x) <= Z.of_nat fuel ->
  let n := b - Z.log2 (frac x) in
  0 <= n /\ shift_up fuel b x = Ok (Fp (frac x * 2 ^ n) (fexp x - n)) /\ 2 ^ b <= frac x * 2 ^ n < 2 ^ (b + 1).
Proof.
  induction fuel as [|fuel IH]; intros b x Hf Hb Hn n.
  all: pose proof (Z.log2_spec (frac x) ltac:(lia)) as L.
  all: assert (Ln : Z.log2 (frac x) <= b) by (apply Z.lt_succ_r, Z.log2_lt_pow2; [lia|]; rewrite <- Z.add_1_r; lia).
  all: pose proof (Z.log2_nonneg (frac x)) as Ln0.
  - assert (n = 0) by lia. assert (E : Z.log2 (frac x) = b) by lia. unfold shift_up. 
    rewrite <- E at 1. rewrite Z.bit_log2 by lia. cbn [negb]. rewrite H, Z.mul_1_r, Z.sub_0_r, E in *. split; [lia|]. split; [destruct x; reflexivity|]. rewrite Z.add_1_r. exact L.
  - destruct (Z.eq_dec (Z.log2 (frac x)) b) as [E|E].
    + assert (n = 0) by lia. cbn [shift_up].
      rewrite <- E at 1. rewrite Z.bit_log2 by lia. cbn [negb]. rewrite H, Z.mul_1_r, Z.sub_0_r, E in *. split; [lia|]. split; [destruct x; reflexivity|]. rewrite Z.add_1_r. exact L.
    + cbn [shift_up]. rewrite (Z.bits_above_log2 (frac x) b) by lia. cbn [negb].
      assert (P : 2 ^ (b + 1) <= 2 ^ 63) by (apply Z.pow_le_mono_r; lia).
      assert (Q : 2 ^ Z.succ (Z.log2 (frac x)) <= 2 ^ b) by (apply Z.pow_le_mono_r; lia).
      assert (R : 2 ^ (b + 1) = 2 * 2 ^ b) by (rewrite Z.pow_add_r by lia; lia).
      rewrite w64_id by lia.
      assert (Lg : Z.log2 (frac x * 2) = Z.log2 (frac x) + 1) by (rewrite Z.mul_comm, Z.log2_double by lia; lia).
      destruct (IH b (Fp (frac x * 2) (fexp x - 1))) as (N & S & B); cbn [frac fexp] in *; [lia|lia|lia|].
      rewrite Lg in *. assert (Pn : 2 ^ n = 2 * 2 ^ (b - (Z.log2 (frac x) + 1))).
      { unfold n. rewrite <- Z.pow_succ_r by lia. f_equal. lia. }
      split; [lia|]. rewrite Pn. split; [|lia]. rewrite S. do 2 f_equal; lia.
Qed.

(** ** Multiplying *)
Lemma multiply_frac a b : 0 <= frac a < 2 ^ 64 -> 0 <= frac b < 2 ^ 64 -> frac (multiply a b) = (frac a * frac b + 2 ^ 63) / 2 ^ 64.
Proof.
  intros Ha Hb. unfold multiply. cbn [frac].
  pose proof (Z.div_mod (frac a) (2 ^ 32) ltac:(lia)) as Ea. pose proof (Z.div_mod (frac b) (2 ^ 32) ltac:(lia)) as Eb.
  pose proof (Z.mod_pos_bound (frac a) (2 ^ 32) ltac:(lia)) as La. pose proof (Z.mod_pos_bound (frac b) (2 ^ 32) ltac:(lia)) as Lb.
  assert (Qa : 0 <= frac a / 2 ^ 32 < 2 ^ 32) by (split; [apply Z.div_pos; lia|apply Z.div_lt_upper_bound; lia]).
  assert (Qb : 0 <= frac b / 2 ^ 32 < 2 ^ 32) by (split; [apply Z.div_pos; lia|apply Z.div_lt_upper_bound; lia]).
  set (ah := frac a / 2 ^ 32) in *. set (al := frac a mod 2 ^ 32) in *. set (bh := frac b / 2 ^ 32) in *. set (bl := frac b mod 2 ^ 32) in *.
  assert (P1 : 0 <= ah * bl <= (2 ^ 32 - 1) * (2 ^ 32 - 1)) by nia. assert (P2 : 0 <= al * bh <= (2 ^ 32 - 1) * (2 ^ 32 - 1)) by nia.
  assert (P3 : 0 <= al * bl <= (2 ^ 32 - 1) * (2 ^ 32 - 1)) by nia. assert (P4 : 0 <= ah * bh <= (2 ^ 32 - 1) * (2 ^ 32 - 1)) by nia.
  assert (Ex : frac a * frac b = ah * bh * 2 ^ 64 + (ah * bl + al * bh) * 2 ^ 32 + al * bl) by (rewrite Ea, Eb; ring).
  rewrite Ex. clearbody ah al bh bl. clear Ea Eb Ex Ha Hb La Lb Qa Qb. 
  set (x := ah * bl) in *. set (y := al * bh) in *. set (z := al * bl) in *. set (w := ah * bh) in *. clearbody x y z w. clear a b ah al bh bl.
  rewrite (w64_id x), (w64_id y), (w64_id z), (w64_id w) by lia.
  pose proof (Z.div_mod x (2 ^ 32) ltac:(lia)) as Ex. pose proof (Z.mod_pos_bound x (2 ^ 32) ltac:(lia)) as Lx.
  pose proof (Z.div_mod y (2 ^ 32) ltac:(lia)) as Ey. pose proof (Z.mod_pos_bound y (2 ^ 32) ltac:(lia)) as Ly.
  pose proof (Z.div_mod z (2 ^ 32) ltac:(lia)) as Ez. pose proof (Z.mod_pos_bound z (2 ^ 32) ltac:(lia)) as Lz.
  set (xh := x / 2 ^ 32) in *. set (xl := x mod 2 ^ 32) in *. set (yh := y / 2 ^ 32) in *. set (yl := y mod 2 ^ 32) in *. set (zh := z / 2 ^ 32) in *. set (zl := z mod 2 ^ 32) in *.
  clearbody xh xl yh yl zh zl. assert (Bz : 0 <= zh < 2 ^ 32) by lia. assert (Bx : 0 <= xh < 2 ^ 32) by lia. assert (By : 0 <= yh < 2 ^ 32) by lia.
  rewrite (w64_id (xl + yl + zh)) by lia. rewrite (w64_id (xl + yl + zh + 2 ^ 31)) by lia.
  set (t := xl + yl + zh + 2 ^ 31) in *. pose proof (Z.div_mod t (2 ^ 32) ltac:(lia)) as Et. pose proof (Z.mod_pos_bound t (2 ^ 32) ltac:(lia)) as Lt.
  set (th := t / 2 ^ 32) in *. set (tl := t mod 2 ^ 32) in *. clearbody th tl.
  assert (Ev : w * 2 ^ 64 + (x + y) * 2 ^ 32 + z + 2 ^ 63 = (w + xh + yh + th) * 2 ^ 64 + (tl * 2 ^ 32 + zl)) by (unfold t in *; lia).
  rewrite Ev. rewrite Z.div_add_l by lia. rewrite (Z.div_small (tl * 2 ^ 32 + zl)) by lia. rewrite Z.add_0_r. apply w64_id. lia.
Qed.

(** ** The table of powers of ten *)
Definition pos (z : Z) : Z := Z.max z 0.
(** [c * 2^ce] is [10^k] up to half a unit (times [2^pos (-ce) * 10^pos (-k)]). *)
Definition power_ok (p : fp) (k : Z) : bool :=
  (2 ^ 63 <=? frac p) && (frac p <? 2 ^ 64) &&
  (2 * Z.abs (frac p * 2 ^ pos (fexp p) * 10 ^ pos (- k) - 10 ^ pos k * 2 ^ pos (- fexp p)) <=? 2 ^ pos (fexp p) * 10 ^ pos (- k)).
Fixpoint powers_ok (l : list fp) (k : Z) : bool := match l with [] => true | p :: l' => power_ok p k && powers_ok l' (k + 8) end.
Lemma table_ok : powers_ok powers_ten (-348) = true. Proof. vm_compute. reflexivity. Qed.
Lemma powers_nth : forall l k i p, powers_ok l k = true -> nth_error l i = Some p -> power_ok p (k + Z.of_nat i * 8) = true.
Proof.
  induction l as [|q l IH]; intros k i p H N; [destruct i; discriminate N|]. cbn [powers_ok] in H. apply andb_true_iff in H as [H1 H2].
  destruct i as [|i]; cbn [nth_error] in N.
  - injection N as <-. now rewrite Z.add_0_r.
  - pose proof (IH _ _ _ H2 N) as R. rewrite <- R. f_equal. lia.
Qed.
Definition found (e : Z) : bool := match find_cachedpow10 e with Ok _ => true | _ => false end.
Fixpoint all_from (P : Z -> bool) (n : nat) (e : Z) : bool := match n with O => true | S n' => P e && all_from P n' (e + 1) end.
Lemma all_from_in P : forall n e x, all_from P n e = true -> e <= x < e + Z.of_nat n -> P x = true.
Proof.
  induction n as [|n IH]; intros e x H L; [lia|]. cbn [all_from] in H. apply andb_true_iff in H as [H1 H2].
  destruct (Z.eq_dec x e) as [->|N]; [exact H1|]. apply (IH (e + 1)); [exact H2|lia].
Qed.
Lemma all_found : all_from found (Z.to_nat 2100) (-1138) = true. Proof. vm_compute. reflexivity. Qed.
Lemma find_power_spec : forall n e i p k, find_power n e i = Ok (p, k) ->
  power_ok p k = true /\ -60 <= e + fexp p + 64 <= -32 /\ -348 <= k <= 340.
Proof.
  induction n as [|n IH]; intros e i p k; cbn [find_power]; intros H.
  - destruct (if i <? 0 then None else _); discriminate H.
  - destruct (Z.ltb_spec i 0) as [L|L]; [discriminate H|]. destruct (nth_error powers_ten (Z.to_nat i)) as [q|] eqn:N; [|discriminate H]. cbv zeta in H.
    destruct (Z.ltb_spec (e + fexp q + 64) expmin) as [A|A]; [now apply IH in H|]. destruct (Z.ltb_spec expmax (e + fexp q + 64)) as [B|B]; [now apply IH in H|].
    assert (q = p /\ firstpower + i * steppowers = k) as [-> <-] by (split; congruence). clear H. unfold expmin, expmax, firstpower, steppowers in *. pose proof (powers_nth _ _ _ _ table_ok N) as P.
    assert (I : (Z.to_nat i < 87)%nat) by (change 87%nat with (List.length powers_ten); apply nth_error_Some; congruence).
    rewrite Z2Nat.id in P by lia. split; [exact P|]. lia.
Qed.
Lemma find_cached_spec e p k : find_cachedpow10 e = Ok (p, k) -> power_ok p k = true /\ -60 <= e + fexp p + 64 <= -32 /\ -348 <= k <= 340.
Proof.
  unfold find_cachedpow10. cbv zeta. generalize (Z.quot (Z.quot (round53 (- (e + npowers) * 5422874305198590)) (2 ^ 54) - firstpower) steppowers). generalize 87%nat. intros n i. apply find_power_spec.
Qed.
Lemma cached_found e : -1138 <= e <= 961 -> found e = true.
Proof. intros H. apply (all_from_in found (Z.to_nat 2100) (-1138) e all_found). rewrite Z2Nat.id; lia. Qed.
Lemma found_some e : found e = true -> exists p k, find_cachedpow10 e = Ok (p, k).
Proof. unfold found. generalize (find_cachedpow10 e). intros [[p k]|x|x] F; [|discriminate F..]. exists p, k. reflexivity. Qed.
Lemma cached e : -1138 <= e <= 961 -> exists p k, find_cachedpow10 e = Ok (p, k) /\ power_ok p k = true /\ -60 <= e + fexp p + 64 <= -32 /\ -348 <= k <= 340.
Proof.
  intros H. destruct (found_some e (cached_found e H)) as (p & k & E). exists p, k. split; [exact E|]. exact (find_cached_spec e p k E).
Qed.

(** ** Rounding the last digit *)
Lemma round_digit_spec : forall fuel ds d delta rem kap fr,
  0 <= rem <= delta -> delta < 2 ^ 64 -> 0 < kap -> 0 <= d - 48 < Z.of_nat fuel -> delta <= rem + (d - 48) * kap ->
  exists m, 0 <= m <= d - 48 /\ round_digit fuel (d :: ds) delta rem kap fr = Ok ((d - m) :: ds) /\ rem + m * kap <= delta.
Proof.
  induction fuel as [|fuel IH]; intros ds d delta rem kap fr Hr Hd Hk Hf Hl; [lia|]. cbn [round_digit].
  destruct (Z.ltb_spec rem fr) as [A|A]; cbn [andb].
  2:{ exists 0. rewrite Z.sub_0_r. repeat split; auto; lia. }
  rewrite (w64_id (delta - rem)) by lia. destruct (Z.leb_spec kap (delta - rem)) as [B|B]; cbn [andb].
  2:{ exists 0. rewrite Z.sub_0_r. repeat split; auto; lia. }
  destruct (_ || _).
  2:{ exists 0. rewrite Z.sub_0_r. repeat split; auto; lia. }
  rewrite (w64_id (rem + kap)) by lia.
  assert (D : 1 <= d - 48) by nia.
  destruct (IH ds (d - 1) delta (rem + kap) kap fr) as (m & M1 & M2 & M3); [lia|lia|lia|lia|nia|].
  exists (m + 1). split; [lia|]. split; [|nia]. rewrite M2. do 2 f_equal. lia.
Qed.

(** ** Digits, the last one first *)
Fixpoint dnum (ds : list Z) : Z := match ds with [] => 0 | d :: ds' => (d - 48) + 10 * dnum ds' end.
Definition dig (c : Z) : Prop := 48 <= c <= 57.
(** The first digit is not 0. *)
Fixpoint lead (ds : list Z) : Prop := match ds with [] => True | [d] => d <> 48 | _ :: ds' => lead ds' end.
Lemma dnum_nonneg ds : Forall dig ds -> 0 <= dnum ds.
Proof. induction 1 as [|d ds H F IH]; cbn [dnum]; unfold dig in *; lia. Qed.
Lemma dnum_range ds : Forall dig ds -> 0 <= dnum ds < 10 ^ Z.of_nat (List.length ds).
Proof.
  induction 1 as [|d ds H F IH]; [cbn; lia|]. cbn [dnum List.length]. rewrite Nat2Z.inj_succ, Z.pow_succ_r by lia. unfold dig in H. lia.
Qed.
Lemma dnum_lead ds : Forall dig ds -> lead ds -> ds <> [] -> 10 ^ (Z.of_nat (List.length ds) - 1) <= dnum ds.
Proof.
  induction 1 as [|d ds H F IH]; intros L N; [contradiction|]. cbn [List.length]. destruct ds as [|d' ds].
  - cbn [lead] in L. cbn. unfold dig in H. lia.
  - cbn [lead] in L. specialize (IH L ltac:(discriminate)). rewrite Nat2Z.inj_succ. replace (Z.succ _ - 1) with (Z.succ (Z.of_nat (List.length (d' :: ds)) - 1)) by lia.
    rewrite Z.pow_succ_r by (cbn [List.length]; lia). unfold dig in H. change (dnum (d :: d' :: ds)) with ((d - 48) + 10 * dnum (d' :: ds)). lia.
Qed.
Lemma push_spec ds digit : 0 <= digit <= 9 -> (List.length ds <= 17)%nat -> Forall dig ds -> lead ds ->
  exists ds', push_digit ds digit = Ok ds' /\ dnum ds' = 10 * dnum ds + digit /\ Forall dig ds' /\ lead ds' /\
  (ds' = (digit + 48) :: ds \/ ds' = [] /\ ds = [] /\ digit = 0).
Proof.
  intros Hd Hl F L. unfold push_digit. destruct (Nat.eqb_spec (List.length ds) 0) as [E|E].
  - destruct ds; [|discriminate E]. destruct (Z.eqb_spec digit 0) as [E0|E0]; cbn [negb orb].
    + exists []. subst digit. split; [reflexivity|]. split; [reflexivity|]. split; [constructor|]. split; [exact Logic.I|]. right. auto.
    + cbn. exists [digit + 48]. split; [reflexivity|]. split; [cbn; lia|]. split; [constructor; [unfold dig; lia|constructor]|]. split; [cbn; lia|]. left; reflexivity.
  - rewrite orb_true_r. cbn [negb]. destruct (Nat.ltb_spec (List.length ds) 18) as [G|G]; [|lia]. exists ((digit + 48) :: ds). split; [reflexivity|]. split; [cbn [dnum]; lia|].
    split; [constructor; [unfold dig; lia|exact F]|]. split; [|left; reflexivity]. destruct ds; [cbn in E; lia|]. exact L.
Qed.
Lemma dnum_last d m ds : dnum ((d - m) :: ds) = dnum (d :: ds) - m.
Proof. cbn [dnum]. lia. Qed.
Lemma lead_last d m ds : lead (d :: ds) -> 0 < dnum ((d - m) :: ds) -> lead ((d - m) :: ds).
Proof. destruct ds; [|intros L _; exact L]. cbn [lead dnum]. lia. Qed.

(** ** Generating digits *)
Fixpoint pows (k : nat) : list Z := match k with O => [] | S k' => 10 ^ Z.of_nat k' :: pows k' end.
Lemma tens_whole : skipn 10 tens = pows 10. Proof. vm_compute. reflexivity. Qed.
Section Digits.
  Variables (s N Lo delta wfrac : Z).
  Hypotheses (Hs : 32 <= s <= 60) (HN : 0 < N < 2 ^ 64) (HLo : 0 < Lo <= N) (Hdelta : delta = N - Lo).

  Lemma pow_s : 0 < 2 ^ s <= 2 ^ 60.
  Proof. split; [apply Z.pow_pos_nonneg; lia|apply Z.pow_le_mono_r; lia]. Qed.
  Lemma pow_s32 : 2 ^ 32 <= 2 ^ s.
  Proof. apply Z.pow_le_mono_r; lia. Qed.
  Lemma few_digits ds k : Forall dig ds -> lead ds -> 0 <= k -> dnum ds * 10 ^ k * 2 ^ s <= N -> Z.of_nat (List.length ds) + k <= 10 \/ ds = [].
  Proof.
    intros F L Hk H. destruct ds as [|d ds]; [right; reflexivity|left]. pose proof (dnum_lead _ F L ltac:(discriminate)) as G. set (D := dnum (d :: ds)) in *. clearbody D.
    set (n := Z.of_nat (List.length (d :: ds))) in *. assert (1 <= n) by (unfold n; cbn [List.length]; lia). clearbody n.
    pose proof pow_s32 as P. assert (0 < 10 ^ k) by (apply Z.pow_pos_nonneg; lia).
    assert (A : 10 ^ (n - 1) * 10 ^ k * 2 ^ 32 < 2 ^ 64).
    { apply Z.le_lt_trans with (D * 10 ^ k * 2 ^ s); [|lia]. apply Z.mul_le_mono_nonneg; [apply Z.mul_nonneg_nonneg; [apply Z.pow_nonneg; lia|lia]| |lia|exact P].
      apply Z.mul_le_mono_nonneg_r; [lia|exact G]. }
    rewrite <- Z.pow_add_r in A by lia. destruct (Z_le_gt_dec (n + k) 10) as [|B]; [assumption|exfalso].
    assert (C : 10 ^ 10 <= 10 ^ (n - 1 + k)) by (apply Z.pow_le_mono_r; lia). lia.
  Qed.

  Lemma whole_spec : forall k ds part1 part2,
    (k <= 10)%nat -> Forall dig ds -> lead ds -> 0 <= part1 < 10 ^ Z.of_nat k -> 0 <= part2 < 2 ^ s ->
    N = dnum ds * 10 ^ Z.of_nat k * 2 ^ s + part1 * 2 ^ s + part2 -> delta < part1 * 2 ^ s + part2 ->
    exists r, digits_whole (pows k) (Z.of_nat k) s wfrac delta part1 part2 ds = Ok r /\
    match r with
    | (Some (ds', kappa), _, _) => Forall dig ds' /\ lead ds' /\ 0 <= kappa <= 9 /\ (List.length ds' <= 10)%nat /\ Lo <= dnum ds' * 10 ^ kappa * 2 ^ s <= N
    | (None, ds', _) => Forall dig ds' /\ lead ds' /\ N = dnum ds' * 2 ^ s + part2 /\ delta < part2
    end.
  Proof.
    pose proof pow_s as PS.
    induction k as [|k IH]; intros ds part1 part2 Hk F L Hp1 Hp2 EN Hd.
    - exists (None, ds, part1). split; [reflexivity|]. assert (part1 = 0) by (cbn in Hp1; lia). subst part1. split; [exact F|]. split; [exact L|]. split; lia.
    - cbn [pows digits_whole]. rewrite Nat2Z.inj_succ in *. destruct (Z.ltb_spec 0 (Z.succ (Z.of_nat k))) as [_|]; [|lia]. cbv zeta.
      rewrite Z.pow_succ_r in Hp1, EN by lia. set (T := 10 ^ Z.of_nat k) in *. assert (HT : 0 < T) by (apply Z.pow_pos_nonneg; lia).
      set (q := part1 / T). assert (Hq : 0 <= q <= 9) by (unfold q; split; [apply Z.div_pos; lia|]; apply Z.lt_succ_r, Z.div_lt_upper_bound; lia).
      assert (T9 : T <= 10 ^ 9) by (apply Z.pow_le_mono_r; lia).
      pose proof (Z.div_mod part1 T ltac:(lia)) as Dm. fold q in Dm. pose proof (Z.mod_pos_bound part1 T ltac:(lia)) as Bm. set (p1 := part1 mod T) in *. clearbody q p1.
      rewrite (Z.mod_small q) by lia. 
      pose proof (few_digits ds (Z.succ (Z.of_nat k)) F L ltac:(lia)) as FD. rewrite Z.pow_succ_r in FD by lia. fold T in FD.
      assert (G1 : 0 <= part1 * 2 ^ s) by (apply Z.mul_nonneg_nonneg; lia). specialize (FD ltac:(lia)).
      assert (Ln : (List.length ds <= 9)%nat) by (destruct FD as [X| ->]; [lia|cbn; lia]).
      destruct (push_spec ds q Hq ltac:(lia) F L) as (ds1 & E1 & D1 & F1 & L1 & S1). rewrite E1. cbn [bind].
      assert (Hqt : 0 <= q * T <= part1) by lia.
      assert (P1 : part1 < 2 ^ 64) by lia.
      rewrite (w64_id (q * T)) by lia. replace (part1 - q * T) with p1 by lia. rewrite (w64_id p1) by lia.
      rewrite (shl_ok p1 s) by lia. cbn [bind].
      assert (EN1 : N = dnum ds1 * T * 2 ^ s + p1 * 2 ^ s + part2) by (rewrite D1, EN; rewrite Dm; ring).
      assert (G2 : 0 <= p1 * 2 ^ s) by (apply Z.mul_nonneg_nonneg; lia).
      assert (G3 : 0 <= dnum ds1 * T * 2 ^ s) by (apply Z.mul_nonneg_nonneg; [apply Z.mul_nonneg_nonneg; [now apply dnum_nonneg|lia]|lia]).
      rewrite (w64_id (p1 * 2 ^ s)) by lia. rewrite (w64_id (p1 * 2 ^ s + part2)) by lia.
      destruct (Z.leb_spec (p1 * 2 ^ s + part2) delta) as [A|A].
      + (* the loop ends here *)
        rewrite (shl_ok T s) by lia. cbn [bind].
        assert (S1' : ds1 = (q + 48) :: ds).
        { destruct S1 as [->|(-> & -> & ->)]; [reflexivity|]. exfalso. change (dnum []) with 0 in EN1. lia. }
        subst ds1. assert (D1' : dnum (q + 48 :: ds) <> 0) by (intros X; rewrite X in EN1; lia).
        pose proof (dnum_nonneg _ F1) as D1''. 
        assert (G4 : T * 2 ^ s <= N).
        { assert (T * 2 ^ s * 1 <= T * 2 ^ s * dnum (q + 48 :: ds)) by (apply Z.mul_le_mono_nonneg_l; [apply Z.mul_nonneg_nonneg; lia|lia]). lia. }
        assert (G5 : 0 < T * 2 ^ s) by (apply Z.mul_pos_pos; lia).
        rewrite (w64_id (T * 2 ^ s)) by lia.
        destruct (round_digit_spec 20 ds (q + 48) delta (p1 * 2 ^ s + part2) (T * 2 ^ s) wfrac) as (m & M1 & M2 & M3); [lia|lia|lia|lia| |].
        { replace ((q + 48 - 48) * (T * 2 ^ s)) with (q * T * 2 ^ s) by ring. replace (part1) with (T * q + p1) in Hd by lia. rewrite Z.mul_add_distr_r in Hd. rewrite (Z.mul_comm T q) in Hd. lia. }
        rewrite M2. cbn [bind]. eexists. split; [reflexivity|]. 
        assert (DM : dnum (q + 48 - m :: ds) = dnum (q + 48 :: ds) - m) by apply dnum_last.
        assert (LoX : Lo <= dnum (q + 48 - m :: ds) * T * 2 ^ s).
        { rewrite DM. replace ((dnum (q + 48 :: ds) - m) * T * 2 ^ s) with (dnum (q + 48 :: ds) * T * 2 ^ s - m * (T * 2 ^ s)) by ring. lia. }
        assert (HiX : dnum (q + 48 - m :: ds) * T * 2 ^ s <= N).
        { rewrite DM. replace ((dnum (q + 48 :: ds) - m) * T * 2 ^ s) with (dnum (q + 48 :: ds) * T * 2 ^ s - m * (T * 2 ^ s)) by ring.
          assert (0 <= m * (T * 2 ^ s)) by (apply Z.mul_nonneg_nonneg; lia). lia. }
        split; [constructor; [unfold dig; lia|exact F]|]. split.
        { apply lead_last; [exact L1|]. assert (X : 0 < dnum (q + 48 - m :: ds) * (T * 2 ^ s)) by (rewrite Z.mul_assoc; lia). apply Z.mul_pos_cancel_r in X; lia. }
        split; [lia|]. split; [cbn [List.length]; lia|]. replace (Z.succ (Z.of_nat k) - 1) with (Z.of_nat k) by lia. fold T. lia.
      + replace (Z.succ (Z.of_nat k) - 1) with (Z.of_nat k) by lia. apply IH; auto; lia.
  Qed.

  Hypotheses (Hwide : N <= 10 ^ 16 * delta) (Hd1 : 0 < delta).
  Lemma fraction_spec : forall units j ds part2,
    19 <= Z.of_nat j + Z.of_nat (List.length units) -> Forall dig ds -> lead ds -> 0 <= part2 < 2 ^ s ->
    10 ^ Z.of_nat j * N = dnum ds * 2 ^ s + part2 -> delta * 10 ^ Z.of_nat j <= part2 ->
    exists ds' j', digits_fraction units (- Z.of_nat j) s wfrac (delta * 10 ^ Z.of_nat j) part2 ds = Ok (ds', - j') /\
      Forall dig ds' /\ lead ds' /\ 1 <= j' <= 19 /\ (List.length ds' <= 17)%nat /\ 10 ^ j' * Lo <= dnum ds' * 2 ^ s <= 10 ^ j' * N.
  Proof.
    pose proof pow_s as PS.
    induction units as [|unit units IH]; intros j ds part2 Hj F L Hp2 EN Hd.
    - exfalso. cbn [List.length] in Hj. assert (10 ^ 19 <= 10 ^ Z.of_nat j) by (apply Z.pow_le_mono_r; lia). nia.
    - cbn [digits_fraction]. cbv zeta. set (J := 10 ^ Z.of_nat j) in *. assert (HJ : 0 < J) by (apply Z.pow_pos_nonneg; lia).
      assert (Jb : J <= delta * J) by nia.
      assert (J19 : Z.of_nat j < 19).
      { destruct (Z_lt_ge_dec (Z.of_nat j) 19) as [|B]; [assumption|]. exfalso. assert (10 ^ 19 <= J) by (apply Z.pow_le_mono_r; lia). lia. }
      rewrite (w64_id (part2 * 10)) by lia. rewrite (w64_id (delta * J * 10)) by lia.
      rewrite (shr_ok (part2 * 10) s) by lia. cbn [bind].
      set (q := part2 * 10 / 2 ^ s). assert (Hq : 0 <= q <= 9) by (unfold q; split; [apply Z.div_pos; lia|]; apply Z.lt_succ_r, Z.div_lt_upper_bound; lia).
      pose proof (Z.div_mod (part2 * 10) (2 ^ s) ltac:(lia)) as Dm. fold q in Dm. pose proof (Z.mod_pos_bound (part2 * 10) (2 ^ s) ltac:(lia)) as Bm.
      set (p2 := (part2 * 10) mod 2 ^ s) in *. clearbody q.
      rewrite (Z.mod_small q) by lia.
      assert (Ln : (List.length ds <= 16)%nat).
      { destruct ds as [|d0 ds0]; [cbn; lia|]. pose proof (dnum_lead _ F L ltac:(discriminate)) as G. 
        set (D := dnum (d0 :: ds0)) in *. clearbody D. set (n := List.length (d0 :: ds0)) in *. assert (1 <= n)%nat by (unfold n; cbn [List.length]; lia). clearbody n.
        destruct (le_lt_dec n 16) as [|B]; [assumption|]. exfalso.
        assert (C : 10 ^ 16 <= 10 ^ (Z.of_nat n - 1)) by (apply Z.pow_le_mono_r; lia).
        assert (X1 : 10 ^ 16 * 2 ^ s <= D * 2 ^ s) by (apply Z.mul_le_mono_nonneg_r; lia).
        assert (X2 : J * N <= J * (10 ^ 16 * delta)) by (apply Z.mul_le_mono_nonneg_l; lia).
        assert (X3 : J * (10 ^ 16 * delta) = 10 ^ 16 * (delta * J)) by ring. lia. }
      destruct (push_spec ds q Hq ltac:(lia) F L) as (ds1 & E1 & D1 & F1 & L1 & S1). rewrite E1. cbn [bind].
      rewrite (shl_ok 1 s) by lia. cbn [bind]. rewrite Z.mul_1_l, (w64_id (2 ^ s)) by lia. fold p2. clearbody p2.
      assert (EN1 : 10 ^ Z.of_nat (S j) * N = dnum ds1 * 2 ^ s + p2).
      { rewrite Nat2Z.inj_succ, Z.pow_succ_r by lia. fold J. rewrite D1. nia. }
      assert (Dj : delta * J * 10 = delta * 10 ^ Z.of_nat (S j)) by (rewrite Nat2Z.inj_succ, Z.pow_succ_r by lia; fold J; ring).
      assert (Ln1 : (List.length ds1 <= 17)%nat) by (destruct S1 as [->|(-> & _)]; cbn [List.length]; lia).
      destruct (Z.ltb_spec p2 (delta * J * 10)) as [A|A].
      + assert (S1' : ds1 = (q + 48) :: ds).
        { destruct S1 as [->|(-> & -> & ->)]; [reflexivity|]. exfalso. change (dnum []) with 0 in EN1. rewrite Nat2Z.inj_succ, Z.pow_succ_r in EN1 by lia. fold J in EN1. nia. }
        subst ds1.
        destruct (round_digit_spec 20 ds (q + 48) (delta * J * 10) p2 (2 ^ s) (w64 (wfrac * unit))) as (m & M1 & M2 & M3); [lia|lia|lia|lia|lia|].
        rewrite M2. cbn [bind]. exists (q + 48 - m :: ds), (Z.of_nat (S j)). split; [do 2 f_equal; lia|].
        rewrite dnum_last. rewrite Z.mul_sub_distr_r. rewrite Dj in *.
        assert (m2 : 0 <= m * 2 ^ s) by (apply Z.mul_nonneg_nonneg; lia).
        assert (LoX : 10 ^ Z.of_nat (S j) * Lo <= dnum (q + 48 :: ds) * 2 ^ s - m * 2 ^ s).
        { replace Lo with (N - delta) by lia. rewrite Z.mul_sub_distr_l, EN1. lia. }
        assert (PJ : 0 < 10 ^ Z.of_nat (S j)) by (apply Z.pow_pos_nonneg; lia).
        split; [constructor; [unfold dig; lia|exact F]|]. split.
        { apply lead_last; [exact L1|]. rewrite dnum_last. assert (Y : 0 < 10 ^ Z.of_nat (S j) * Lo) by (apply Z.mul_pos_pos; lia).
          assert (X : 0 < (dnum (q + 48 :: ds) - m) * 2 ^ s) by (rewrite Z.mul_sub_distr_r; lia). apply Z.mul_pos_cancel_r in X; lia. }
        split; [lia|]. split; [cbn [List.length] in *; lia|]. lia.
      + rewrite Dj. replace (- Z.of_nat j - 1) with (- Z.of_nat (S j)) by lia. apply IH; auto; [cbn [List.length] in Hj; lia|lia].
  Qed.
End Digits.

Lemma generate_spec w upper lower :
  -60 <= fexp upper <= -32 -> 0 < frac lower <= frac upper -> frac upper < 2 ^ 64 ->
  0 < frac upper - frac lower -> frac upper <= 10 ^ 16 * (frac upper - frac lower) ->
  let s := - fexp upper in
  exists ds kappa, generate_digits w upper lower = Ok (ds, kappa) /\ Forall dig ds /\ lead ds /\ -19 <= kappa <= 9 /\ (List.length ds <= 17)%nat /\
  10 ^ pos (- kappa) * frac lower <= dnum ds * 10 ^ pos kappa * 2 ^ s <= 10 ^ pos (- kappa) * frac upper.
Proof.
  intros He Hl Hu Hd Hw s. unfold generate_digits. cbv zeta. fold s. assert (Hs : 32 <= s <= 60) by (unfold s; lia). clearbody s.
  rewrite (shl_ok 1 s) by lia. cbn [bind]. rewrite Z.mul_1_l. assert (PS : 0 < 2 ^ s <= 2 ^ 60) by (split; [apply Z.pow_pos_nonneg; lia|apply Z.pow_le_mono_r; lia]).
  rewrite (w64_id (2 ^ s)) by lia. rewrite (shr_ok _ s) by lia. cbn [bind]. rewrite (w64_id (frac upper - frac lower)) by lia.
  set (N := frac upper) in *. set (Lo := frac lower) in *. set (wf := w64 _). clearbody N Lo wf. clear w upper lower He.
  pose proof (Z.div_mod N (2 ^ s) ltac:(lia)) as Dm. pose proof (Z.mod_pos_bound N (2 ^ s) ltac:(lia)) as Bm.
  assert (P32 : 2 ^ 32 <= 2 ^ s) by (apply Z.pow_le_mono_r; lia).
  assert (Q : 0 <= N / 2 ^ s < 10 ^ 10) by (split; [apply Z.div_pos; lia|apply Z.div_lt_upper_bound; lia]).
  set (p1 := N / 2 ^ s) in *. set (p2 := N mod 2 ^ s) in *. clearbody p1 p2.
  rewrite tens_whole. change 10 with (Z.of_nat 10) at 1.
  destruct (whole_spec s N Lo (N - Lo) wf Hs ltac:(lia) ltac:(lia) eq_refl 10 [] p1 p2) as (r & Er & Hr); auto; [exact Logic.I|cbn [dnum]; lia|lia|].
  rewrite Er. cbn [bind]. destruct r as [[[[ds k]|] ds'] p']; cbn [fst snd].
  - destruct Hr as (F & L & K & Ln & B). exists ds, k. split; [reflexivity|]. split; [exact F|]. split; [exact L|]. split; [lia|]. split; [lia|].
    unfold pos. rewrite (Z.max_l k 0), (Z.max_r (- k) 0) by lia. rewrite !Z.mul_1_l. exact B.
  - destruct Hr as (F & L & E & D).
    assert (X1 : 19 <= Z.of_nat 0 + Z.of_nat (List.length (rev (firstn 19 tens)))) by (vm_compute; discriminate).
    assert (X2 : 10 ^ Z.of_nat 0 * N = dnum ds' * 2 ^ s + p2) by (change (10 ^ Z.of_nat 0) with 1; lia).
    assert (X3 : (N - Lo) * 10 ^ Z.of_nat 0 <= p2) by (change (10 ^ Z.of_nat 0) with 1; lia).
    destruct (fraction_spec s N Lo (N - Lo) wf Hs ltac:(lia) ltac:(lia) eq_refl Hw Hd (rev (firstn 19 tens)) 0 ds' p2 X1 F L Bm X2 X3) as (ds & j & Ef & F2 & L2 & J & Ln & B).
    change (- Z.of_nat 0) with 0 in Ef. change (10 ^ Z.of_nat 0) with 1 in Ef. rewrite Z.mul_1_r in Ef. rewrite Ef. exists ds, (- j). split; [reflexivity|]. split; [exact F2|]. split; [exact L2|]. split; [lia|]. split; [exact Ln|].
    unfold pos. rewrite Z.opp_involutive. rewrite (Z.max_l j 0), (Z.max_r (- j) 0) by lia. rewrite Z.mul_1_r. exact B.
Qed.

(** ** The boundaries *)
(** How far the number is shifted up to be normalized. *)
Definition up (f : Z) : Z := 52 - Z.log2 f.
Definition low_bound (f : Z) : Z := if f =? 2 ^ 52 then (4 * f - 1) * 2 ^ (up f + 9) else (2 * f - 1) * 2 ^ (up f + 10).
Definition high_bound (f : Z) : Z := (2 * f + 1) * 2 ^ (up f + 10).
Lemma up_range f : 0 < f < 2 ^ 53 -> 0 <= up f <= 52 /\ 2 ^ 52 <= f * 2 ^ up f < 2 ^ 53 /\ (f + 1) * 2 ^ up f <= 2 ^ 53.
Proof.
  intros H. unfold up. pose proof (Z.log2_nonneg f). assert (Z.log2 f < 53) by (apply Z.log2_lt_pow2; lia).
  destruct (Z.log2_spec f ltac:(lia)) as [A B]. split; [lia|].
  assert (E : 2 ^ 52 = 2 ^ Z.log2 f * 2 ^ (52 - Z.log2 f)) by (rewrite <- Z.pow_add_r by lia; f_equal; lia).
  assert (E' : 2 ^ 53 = 2 ^ Z.succ (Z.log2 f) * 2 ^ (52 - Z.log2 f)) by (rewrite <- Z.pow_add_r by lia; f_equal; lia).
  assert (0 < 2 ^ (52 - Z.log2 f)) by (apply Z.pow_pos_nonneg; lia). nia.
Qed.
Lemma normalize_spec f e : 0 < f < 2 ^ 53 -> normalize (Fp f e) = Ok (Fp (f * 2 ^ (up f + 11)) (e - up f - 11)).
Proof.
  intros H. destruct (up_range f H) as [U B]. destruct (shift_up_spec 64 52 (Fp f e)) as (S1 & S2 & S3); cbn [frac fexp]; [lia|lia|pose proof (Z.log2_nonneg f); lia|].
  cbn [frac fexp] in *. fold (up f) in *. unfold normalize. rewrite S2. cbn [bind frac fexp]. change (64 - 52 - 1) with 11. rewrite shl_ok by lia. cbn [bind].
  rewrite Z.pow_add_r by lia. rewrite Z.mul_assoc. rewrite w64_id by lia. reflexivity.
Qed.
Lemma boundaries_spec f e : 0 < f < 2 ^ 53 ->
  get_normalized_boundaries (Fp f e) = Ok (Fp (low_bound f) (e - up f - 11), Fp (high_bound f) (e - up f - 11)).
Proof.
  intros H. destruct (up_range f H) as [U B].
  assert (Lg : Z.log2 (2 * f + 1) = Z.log2 f + 1) by (rewrite Z.log2_succ_double by lia; lia).
  unfold get_normalized_boundaries. cbn [frac fexp]. rewrite (shl_ok f 1) by lia. cbn [bind]. change (2 ^ 1) with 2. rewrite (w64_id (f * 2)) by lia. rewrite (w64_id (f * 2 + 1)) by lia.
  replace (f * 2 + 1) with (2 * f + 1) by lia.
  assert (Ee : e - 1 - up f - 10 = e - up f - 11) by lia.
  destruct (shift_up_spec 64 53 (Fp (2 * f + 1) (e - 1))) as (S1 & S2 & S3); cbn [frac fexp]; [lia|lia|pose proof (Z.log2_nonneg f); lia|].
  cbn [frac fexp] in *. rewrite Lg in *. replace (53 - (Z.log2 f + 1)) with (up f) in * by (unfold up; lia). rewrite S2. cbn [bind frac fexp].
  change (64 - 52 - 2) with 10. rewrite (shl_ok _ 10) by lia. cbn [bind].
  rewrite (w64_id ((2 * f + 1) * 2 ^ up f * 2 ^ 10)) by lia.
  replace ((2 * f + 1) * 2 ^ up f * 2 ^ 10) with (high_bound f) by (unfold high_bound; rewrite Z.pow_add_r by lia; ring).
  rewrite Ee. unfold hiddenbit. unfold low_bound. destruct (Z.eqb_spec f (2 ^ 52)) as [E|E].
  - assert (U0 : up f = 0) by (subst f; reflexivity). rewrite (shl_ok f 2) by lia. cbn [bind]. cbn [frac fexp]. rewrite (w64_id (f * 2 ^ 2)) by lia. rewrite (w64_id (f * 2 ^ 2 - 1)) by lia.
    rewrite shl_ok by lia. cbn [bind]. rewrite U0. replace (e - 2 - (e - 0 - 11)) with 9 by lia. rewrite w64_id by lia. change (2 ^ (0 + 9)) with (2 ^ 9). replace (f * 2 ^ 2) with (4 * f) by lia. reflexivity.
  - rewrite (shl_ok f 1) by lia. cbn [bind frac fexp]. rewrite (w64_id (f * 2 ^ 1)) by lia. rewrite (w64_id (f * 2 ^ 1 - 1)) by lia.
    rewrite shl_ok by lia. cbn [bind]. replace (e - 1 - (e - up f - 11)) with (up f + 10) by lia.
    assert (0 < 2 ^ up f) by (apply Z.pow_pos_nonneg; lia).
    rewrite w64_id by (rewrite Z.pow_add_r by lia; nia). change (2 ^ 1) with 2. replace (f * 2) with (2 * f) by lia. reflexivity.
Qed.
Lemma bounds_range f : 0 < f < 2 ^ 53 ->
  0 < low_bound f < high_bound f /\ 2 ^ 63 <= high_bound f < 2 ^ 64 /\ high_bound f <= 2 ^ 53 * (high_bound f - low_bound f) /\ 1536 <= high_bound f - low_bound f /\ 2 ^ 62 <= low_bound f.
Proof.
  intros H. destruct (up_range f H) as [U B]. unfold low_bound, high_bound. destruct (Z.eqb_spec f (2 ^ 52)) as [->|E].
  - change (up (2 ^ 52)) with 0. lia.
  - rewrite Z.pow_add_r by lia. assert (P : 1 <= 2 ^ up f) by (apply Z.lt_pred_le, Z.pow_pos_nonneg; lia). set (p := 2 ^ up f) in *. clearbody p.
    set (x := f * p) in *. replace ((2 * f - 1) * (p * 2 ^ 10)) with ((2 * x - p) * 2 ^ 10) by (unfold x; ring). replace ((2 * f + 1) * (p * 2 ^ 10)) with ((2 * x + p) * 2 ^ 10) by (unfold x; ring).
    assert (p <= x) by (unfold x; nia). assert (x + p <= 2 ^ 53) by (unfold x; lia). clearbody x. lia.
Qed.
