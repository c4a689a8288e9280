(** * Facts about integers as text *)
From Verif Require Import Base Decimal JsonInt Base58Facts.

Definition int_size (n : nat) : Prop := In n [1; 2; 4; 8; 16]%nat.
Lemma int_size_pos n : int_size n -> 8 <= tbits n.
Proof. unfold int_size, tbits. cbn [In]. lia. Qed.

(** Exact loop: [lim] is the largest absolute value. *)
Fixpoint iloop (lim v : Z) (found : bool) (s : bytes) : res (Z * bool * bytes) :=
  match s with
  | c :: s' => if is_digit c then (if lim <? v * 10 + (c - 48) then Err E_number_out_of_range else iloop lim (v * 10 + (c - 48)) true s')
               else Ok (v, found, s)
  | [] => Ok (v, found, [])
  end.
Definition rmap {A B} (f : A -> B) (r : res A) : res B := match r with Ok a => Ok (f a) | Err e => Err e | Undef w => Undef w end.
Definition scale (sign : Z) (x : Z * bool * bytes) : Z * bool * bytes := let '(v, f, r) := x in (sign * v, f, r).

Lemma arith_signed n z : int_size n -> - 2 ^ (tbits n - 1) <= z < 2 ^ (tbits n - 1) -> arith true n z = Ok z.
Proof.
  intros Hn H. unfold arith. assert (G : Nat.ltb n 4 = true -> fits_s 32 z = true).
  { intros L. apply Nat.ltb_lt in L. assert (2 ^ (tbits n - 1) <= 2 ^ 31) by (apply Z.pow_le_mono_r; unfold tbits; lia). unfold fits_s. change (2 ^ (32 - 1)) with (2 ^ 31). lia. }
  destruct (Nat.ltb n 4); [now rewrite G|]. assert (F : fits_s (tbits n) z = true) by (unfold fits_s; lia). now rewrite F.
Qed.
Lemma arith_unsigned n z : int_size n -> 0 <= z < 2 ^ tbits n -> arith false n z = Ok z.
Proof.
  intros Hn H. unfold arith. destruct (Nat.ltb n 4) eqn:L.
  - apply Nat.ltb_lt in L. assert (n <= 2)%nat by (unfold int_size in Hn; cbn [In] in Hn; lia).
    assert (2 ^ tbits n <= 2 ^ 16) by (apply Z.pow_le_mono_r; unfold tbits; lia). assert (F : fits_s 32 z = true) by (unfold fits_s; change (2 ^ (32 - 1)) with (2 ^ 31); lia). now rewrite F.
  - rewrite Z.mod_small by lia. reflexivity.
Qed.
Lemma convert_signed n z : int_size n -> - 2 ^ (tbits n - 1) <= z < 2 ^ (tbits n - 1) -> convert_to true n z = z.
Proof.
  intros Hn H. unfold convert_to, wrap_s. apply (to_signed_unsigned (tbits n) z); [pose proof (int_size_pos n Hn); lia|]. unfold fits_s. lia.
Qed.
Lemma convert_unsigned n z : 0 <= z < 2 ^ tbits n -> convert_to false n z = z.
Proof. intros H. apply Z.mod_small. exact H. Qed.
Lemma quot_neg a : 0 <= a -> Z.quot (- a) 10 = - (a / 10).
Proof. intros H. rewrite Z.quot_opp_l by lia. rewrite Z.quot_div_nonneg by lia. reflexivity. Qed.
Lemma pow_half n : int_size n -> 128 <= 2 ^ (tbits n - 1).
Proof. intros H. change 128 with (2 ^ 7). apply Z.pow_le_mono_r; [lia|]. pose proof (int_size_pos n H). lia. Qed.
Lemma pow_full n : int_size n -> 256 <= 2 ^ tbits n.
Proof. intros H. change 256 with (2 ^ 8). apply Z.pow_le_mono_r; [lia|]. pose proof (int_size_pos n H). lia. Qed.

Lemma loop_signed n sign lim s : int_size n -> (sign = 1 /\ lim = 2 ^ (tbits n - 1) - 1 \/ sign = -1 /\ lim = 2 ^ (tbits n - 1)) ->
  forall v found, 0 <= v <= lim ->
  int_loop true n sign (sign * lim) (sign * v) found s = rmap (scale sign) (iloop lim v found s).
Proof.
  intros Hn Hs. pose proof (pow_half n Hn) as HM. remember (2 ^ (tbits n - 1)) as M eqn:EM.
  assert (AR : forall z, - M <= z < M -> arith true n z = Ok z) by (intros z Hz; apply arith_signed; auto; rewrite <- EM; exact Hz).
  assert (CV : forall z, - M <= z < M -> convert_to true n z = z) by (intros z Hz; apply convert_signed; auto; rewrite <- EM; exact Hz).
  induction s as [|c s IH]; intros v found Hv; [reflexivity|]. cbn [int_loop iloop]. unfold is_digit.
  destruct ((48 <=? c) && (c <=? 57)) eqn:Ec; [|reflexivity].
  assert (Hc : 48 <= c <= 57) by lia. cbv zeta. remember (c - 48) as d eqn:Ed. assert (Hd : 0 <= d <= 9) by lia.
  rewrite (CV d) by lia. rewrite (AR (- sign)) by lia. cbn [bind].
  assert (E1 : - sign * (sign * lim) = - lim) by (destruct Hs as [[-> _]|[-> _]]; lia). rewrite E1.
  rewrite (AR (- lim)) by lia. cbn [bind]. rewrite (AR (- lim + d)) by lia. cbn [bind].
  assert (E2 : - sign * (sign * v) = - v) by (destruct Hs as [[-> _]|[-> _]]; lia). rewrite E2.
  rewrite (AR (- v)) by lia. cbn [bind].
  replace (- lim + d) with (- (lim - d)) by lia. rewrite quot_neg by lia. unfold check.
  destruct (lim <? v * 10 + d) eqn:El.
  - destruct (- v <? - ((lim - d) / 10)) eqn:Eq; [reflexivity|lia].
  - destruct (- v <? - ((lim - d) / 10)) eqn:Eq; [lia|]. cbn [negb bind].
    assert (B1 : - M <= sign * v * 10 < M) by (destruct Hs as [[-> ->]|[-> ->]]; lia).
    assert (B2 : - M <= sign * d < M) by (destruct Hs as [[-> ->]|[-> ->]]; lia).
    assert (B3 : - M <= sign * v * 10 + sign * d < M) by (destruct Hs as [[-> ->]|[-> ->]]; lia).
    rewrite (AR _ B1). cbn [bind]. rewrite (AR _ B2). cbn [bind]. rewrite (AR _ B3). cbn [bind]. rewrite (CV _ B3).
    replace (sign * v * 10 + sign * d) with (sign * (v * 10 + d)) by ring. apply IH. lia.
Qed.
Lemma loop_unsigned n s : int_size n ->
  forall v found, 0 <= v <= 2 ^ tbits n - 1 ->
  int_loop false n 1 (2 ^ tbits n - 1) v found s = iloop (2 ^ tbits n - 1) v found s.
Proof.
  intros Hn. pose proof (pow_full n Hn) as HM. remember (2 ^ tbits n) as M eqn:EM.
  assert (AR : forall z, 0 <= z < M -> arith false n z = Ok z) by (intros z Hz; apply arith_unsigned; auto; rewrite <- EM; exact Hz).
  assert (CV : forall z, 0 <= z < M -> convert_to false n z = z) by (intros z Hz; apply convert_unsigned; rewrite <- EM; exact Hz).
  induction s as [|c s IH]; intros v found Hv; [reflexivity|]. cbn [int_loop iloop]. unfold is_digit.
  destruct ((48 <=? c) && (c <=? 57)) eqn:Ec; [|reflexivity].
  assert (Hc : 48 <= c <= 57) by lia. cbv zeta. remember (c - 48) as d eqn:Ed. assert (Hd : 0 <= d <= 9) by lia.
  rewrite (CV d) by lia. cbn [bind]. rewrite (AR (M - 1 - d)) by lia. cbn [bind]. rewrite Z.quot_div_nonneg by lia. unfold check.
  destruct (M - 1 <? v * 10 + d) eqn:El.
  - destruct ((M - 1 - d) / 10 <? v) eqn:Eq; [reflexivity|lia].
  - destruct ((M - 1 - d) / 10 <? v) eqn:Eq; [lia|]. cbn [negb bind].
    rewrite (AR (v * 10)) by lia. cbn [bind]. rewrite (AR (1 * d)) by lia. cbn [bind]. rewrite (AR (v * 10 + 1 * d)) by lia. cbn [bind].
    rewrite (CV (v * 10 + 1 * d)) by lia. replace (v * 10 + 1 * d) with (v * 10 + d) by lia. apply IH. lia.
Qed.

(** What the exact loop computes. *)
Lemma dval_fold v s : fold_left (fun a c => a * 10 + (c - 48)) s v = v * 10 ^ Z.of_nat (List.length s) + dval s.
Proof. apply dval_from. Qed.
Definition facc (v : Z) (s : bytes) : Z := fold_left (fun a c => a * 10 + (c - 48)) s v.
Lemma facc_mono s : forall v, 0 <= v -> forallb is_digit s = true -> v <= facc v s.
Proof.
  induction s as [|c s IH]; intros v Hv H; unfold facc in *; cbn [fold_left forallb] in *; [lia|]. apply andb_prop in H as [Hc H]. apply is_digit_range in Hc.
  specialize (IH (v * 10 + (c - 48)) ltac:(lia) H). lia.
Qed.
Lemma iloop_full lim s : forall v found, 0 <= v <= lim -> forallb is_digit s = true ->
  iloop lim v found s = if facc v s <=? lim then Ok (facc v s, found || negb (Nat.eqb (List.length s) 0), []) else Err E_number_out_of_range.
Proof.
  induction s as [|c s IH]; intros v found Hv H.
  - cbn [iloop List.length Nat.eqb negb]. rewrite Bool.orb_false_r. unfold facc. cbn [fold_left]. destruct (v <=? lim) eqn:E; [reflexivity|lia].
  - cbn [forallb] in H. apply andb_prop in H as [Hc H]. pose proof (proj1 (is_digit_range c) Hc) as Rc. cbn [iloop]. rewrite Hc.
    change (facc v (c :: s)) with (facc (v * 10 + (c - 48)) s). pose proof (facc_mono s (v * 10 + (c - 48)) ltac:(lia) H).
    destruct (lim <? v * 10 + (c - 48)) eqn:E.
    + destruct (facc _ s <=? lim) eqn:E2; [lia|reflexivity].
    + rewrite IH by (auto; lia). cbn [List.length Nat.eqb negb orb]. rewrite Bool.orb_true_r. reflexivity.
Qed.
Lemma iloop_bad lim s : forall v found, forallb is_digit s = false ->
  iloop lim v found s = Err E_number_out_of_range \/ exists v' f c r, iloop lim v found s = Ok (v', f, c :: r).
Proof.
  induction s as [|c s IH]; intros v found H; [discriminate|]. cbn [forallb] in H. cbn [iloop]. destruct (is_digit c); [|right; eauto].
  cbn [andb] in H. destruct (lim <? _); [left; reflexivity|]. apply IH. exact H.
Qed.
Definition finish (r : res (Z * bool * bytes)) : res Z :=
  let* (result, found, rest) := r in
  let* _ := check (match rest with [] => found | _ => false end) E_expected_int in Ok result.
Definition neg_text (sg : bool) (s : bytes) : option bytes := match s with 45 :: s' => if sg then Some s' else None | _ => None end.
Lemma from_json_int_eq sg n s : int_size n -> from_json_int sg n s =
  match neg_text sg s with
  | Some s' => finish (rmap (scale (-1)) (iloop (- tmin sg n) 0 false s'))
  | None => finish (rmap (scale 1) (iloop (tmax sg n) 0 false s))
  end.
Proof.
  intros Hn. pose proof (pow_half n Hn). pose proof (pow_full n Hn).
  assert (P : forall s, int_loop sg n 1 (tmax sg n) 0 false s = rmap (scale 1) (iloop (tmax sg n) 0 false s)).
  { intros s0. destruct sg; unfold tmax.
    - rewrite <- (loop_signed n 1 (2 ^ (tbits n - 1) - 1) s0) by (auto; lia). f_equal; lia.
    - rewrite loop_unsigned by (auto; lia). destruct (iloop _ 0 false s0) as [[[v f] r]| |]; cbn [rmap scale]; auto. rewrite Z.mul_1_l. reflexivity. }
  unfold from_json_int, finish, neg_text.
  assert (N : forall s0, int_loop true n (-1) (tmin true n) 0 false s0 = rmap (scale (-1)) (iloop (- tmin true n) 0 false s0)).
  { intros s0. unfold tmin. rewrite <- (loop_signed n (-1) (- - 2 ^ (tbits n - 1)) s0); [f_equal; lia|auto|right; split; lia|lia]. }
  destruct s as [|c s]; [rewrite P; reflexivity|].
  destruct (Z.eq_dec c 45) as [->|Hc].
  - destruct sg; [rewrite N; reflexivity|rewrite P; reflexivity].
  - assert (Q : forall (A : Type) (x y : A), match c with 45 => x | _ => y end = y).
    { intros A x y. destruct c as [|p|p]; auto. do 7 (try (destruct p as [p|p|]; auto)); congruence. }
    rewrite !Q, P. reflexivity.
Qed.

(** ** Printing *)
Lemma udigits_dec fuel : forall u acc, dec_loop fuel u acc = rev (udigits fuel u) ++ acc.
Proof.
  induction fuel as [|fuel IH]; intros u acc; [reflexivity|]. cbn [dec_loop udigits]. cbv zeta. destruct (u / 10 =? 0); [reflexivity|].
  rewrite IH. cbn [rev]. rewrite <- app_assoc. reflexivity.
Qed.
Lemma udigits_rev u : rev (udigits (S (Z.to_nat (Z.log2 u))) u) = dec u.
Proof. unfold dec. rewrite udigits_dec, app_nil_r. reflexivity. Qed.

Lemma dec_len_le v B k : (0 < k)%nat -> Z.abs v <= B -> B < 10 ^ Z.of_nat k -> (List.length (dec (Z.abs v)) <= k)%nat.
Proof. intros Hk H1 H2. apply dec_length; auto. split; [apply Z.abs_nonneg|lia]. Qed.
Ltac dcase B k := 
  match goal with Hv : _ <= ?v <= _ |- _ =>
    let X := fresh in assert (X : (List.length (dec (Z.abs v)) <= k)%nat) by (apply (dec_len_le v B k); [lia|clear - Hv; lia|vm_compute; reflexivity]);
    clear Hv; revert X; generalize (List.length (dec (Z.abs v))); intros; destruct (v <? 0); cbn; lia end.
Lemma digits10_enough sg n v : int_size n -> tmin sg n <= v <= tmax sg n ->
  (List.length (dec (Z.abs v)) + (if (v <? 0)%Z then 1 else 0) + (if Nat.ltb 4 n then 2 else 0) <= digits10 sg n + 4)%nat.
Proof.
  intros Hn Hv. unfold int_size in Hn. cbn [In] in Hn.
  destruct Hn as [<-|[<-|[<-|[<-|[<-|[]]]]]]; destruct sg.
  - change (-128 <= v <= 127) in Hv. dcase 128 3%nat.
  - change (0 <= v <= 255) in Hv. dcase 255 3%nat.
  - change (-32768 <= v <= 32767) in Hv. dcase 32768 5%nat.
  - change (0 <= v <= 65535) in Hv. dcase 65535 5%nat.
  - change (-2147483648 <= v <= 2147483647) in Hv. dcase 2147483648 10%nat.
  - change (0 <= v <= 4294967295) in Hv. dcase 4294967295 10%nat.
  - change (-9223372036854775808 <= v <= 9223372036854775807) in Hv. dcase 9223372036854775808 19%nat.
  - change (0 <= v <= 18446744073709551615) in Hv. assert (N : v <? 0 = false) by (clear - Hv; lia).
    assert (X : (List.length (dec (Z.abs v)) <= 20)%nat) by (apply (dec_len_le v 18446744073709551615 20); [lia|clear - Hv; lia|vm_compute; reflexivity]).
    rewrite N. clear - X. cbn. lia.
  - change (-170141183460469231731687303715884105728 <= v <= 170141183460469231731687303715884105727) in Hv. dcase 170141183460469231731687303715884105728 39%nat.
  - change (0 <= v <= 340282366920938463463374607431768211455) in Hv. assert (N : v <? 0 = false) by (clear - Hv; lia).
    assert (X : (List.length (dec (Z.abs v)) <= 39)%nat) by (apply (dec_len_le v 340282366920938463463374607431768211455 39); [lia|clear - Hv; lia|vm_compute; reflexivity]).
    rewrite N. clear - X. cbn. lia.
Qed.

(** ** Byte array decimals *)
Lemma mul10_spec a : forall c, bytes_ok a -> 0 <= c <= 9 ->
  let '(r, k) := mul10_add c a in bytes_ok r /\ List.length r = List.length a /\ 0 <= k <= 9 /\ le_val r + 256 ^ Z.of_nat (List.length a) * k = 10 * le_val a + c.
Proof.
  induction a as [|b a IH]; intros c Ha Hc; cbn [mul10_add].
  - cbn [List.length le_val Z.of_nat]. rewrite Z.pow_0_r. split; [constructor|]. split; [reflexivity|]. split; lia.
  - inversion Ha as [|? ? Hb Ha']; subst. cbv zeta. rewrite Z.shiftr_div_pow2 by lia. change (2 ^ 8) with 256.
    unfold is_byte in Hb. specialize (IH ((b * 10 + c) / 256) Ha' ltac:(lia)).
    destruct (mul10_add ((b * 10 + c) / 256) a) as [r k]. destruct IH as (I1 & I2 & I3 & I4).
    split; [constructor; auto; apply Z.mod_pos_bound; lia|]. cbn [List.length le_val]. split; [lia|]. split; [exact I3|].
    rewrite Nat2Z.inj_succ, Z.pow_succ_r by lia. pose proof (Z.div_mod (b * 10 + c) 256 ltac:(lia)). nia.
Qed.
Lemma le_val_inj a b : bytes_ok a -> bytes_ok b -> List.length a = List.length b -> le_val a = le_val b -> a = b.
Proof. intros Ha Hb Hl Hv. rewrite <- (le_bytes_le_val a (List.length a) Ha eq_refl), <- (le_bytes_le_val b (List.length a) Hb Hl). congruence. Qed.
Lemma decimal_loop_ok s : forall a, bytes_ok a -> forallb is_digit s = true ->
  decimal_loop a s = if facc (le_val a) s <? 256 ^ Z.of_nat (List.length a) then Ok (le_bytes (List.length a) (facc (le_val a) s)) else Err E_number_out_of_range.
Proof.
  induction s as [|c s IH]; intros a Ha Hs.
  - cbn [decimal_loop]. unfold facc. cbn [fold_left]. pose proof (le_val_bound a Ha). destruct (_ <? _) eqn:E; [|lia]. f_equal. symmetry. apply le_bytes_le_val; auto.
  - cbn [forallb] in Hs. apply andb_prop in Hs as [Hc Hs]. apply is_digit_range in Hc. cbn [decimal_loop]. unfold check.
    destruct (negb ((c <? 48) || (57 <? c))) eqn:E; [|lia]. cbn [bind]. pose proof (mul10_spec a (c - 48) Ha ltac:(lia)) as M.
    destruct (mul10_add (c - 48) a) as [r k]. destruct M as (M1 & M2 & M3 & M4). change (facc (le_val a) (c :: s)) with (facc (le_val a * 10 + (c - 48)) s).
    pose proof (le_val_bound a Ha). pose proof (le_val_bound r M1) as Br. rewrite M2 in Br.
    pose proof (facc_mono s (le_val a * 10 + (c - 48)) ltac:(lia) Hs) as Mo.
    assert (P : 0 < 256 ^ Z.of_nat (List.length a)) by (apply Z.pow_pos_nonneg; lia).
    destruct (k =? 0) eqn:Ek; cbn [bind].
    + assert (k = 0) by lia. subst k. rewrite Z.mul_0_r, Z.add_0_r in M4. rewrite IH by auto. rewrite M2. replace (le_val r) with (le_val a * 10 + (c - 48)) by lia. reflexivity.
    + destruct (facc _ s <? _) eqn:E2; [nia|reflexivity].
Qed.
Lemma decimal_loop_bad s : forall a, bytes_ok a -> forallb is_digit s = false ->
  decimal_loop a s = Err E_expected_int \/ decimal_loop a s = Err E_number_out_of_range.
Proof.
  induction s as [|c s IH]; intros a Ha Hs; [discriminate|]. cbn [forallb] in Hs. cbn [decimal_loop]. unfold check.
  destruct (negb ((c <? 48) || (57 <? c))) eqn:E; [|left; reflexivity]. cbn [bind].
  assert (Hc : is_digit c = true) by (apply is_digit_range; lia). rewrite Hc in Hs. cbn [andb] in Hs.
  pose proof (mul10_spec a (c - 48) Ha ltac:(lia)) as M. destruct (mul10_add (c - 48) a) as [r k]. destruct M as (M1 & _).
  destruct (k =? 0); cbn [bind]; [apply IH; auto|right; reflexivity].
Qed.
Lemma zeros_ok n : bytes_ok (repeat 0 n) /\ le_val (repeat 0 n) = 0.
Proof. induction n as [|n [I1 I2]]; [split; [constructor|reflexivity]|]. cbn [repeat le_val]. split; [constructor; auto; unfold is_byte; lia|lia]. Qed.
Lemma facc_dval s : facc 0 s = dval s.
Proof. reflexivity. Qed.
Lemma negate_loop_val a : forall c, bytes_ok a -> 0 <= c <= 1 ->
  bytes_ok (negate_loop c a) /\ List.length (negate_loop c a) = List.length a /\
  le_val (negate_loop c a) = (256 ^ Z.of_nat (List.length a) - 1 - le_val a + c) mod 256 ^ Z.of_nat (List.length a).
Proof.
  induction a as [|b a IH]; intros c Ha Hc; cbn [negate_loop].
  - split; [constructor|]. split; [reflexivity|]. cbn [List.length le_val Z.of_nat]. rewrite Z.pow_0_r, Z.mod_1_r. reflexivity.
  - inversion Ha as [|? ? Hb Ha']; subst. unfold is_byte in Hb. cbv zeta. rewrite Z.shiftr_div_pow2 by lia. change (2 ^ 8) with 256.
    destruct (IH ((255 - b + c) / 256) Ha' ltac:(lia)) as (I1 & I2 & I3).
    split; [constructor; auto; apply Z.mod_pos_bound; lia|]. cbn [List.length le_val]. split; [lia|]. rewrite I3.
    remember (List.length a) as n. remember ((255 - b + c) / 256) as q eqn:Eq. rewrite Nat2Z.inj_succ, Z.pow_succ_r by lia.
    assert (P : 0 < 256 ^ Z.of_nat n) by (apply Z.pow_pos_nonneg; lia).
    remember (256 ^ Z.of_nat n) as N. pose proof (Z.div_mod (255 - b + c) 256 ltac:(lia)) as D. rewrite <- Eq in D. pose proof (Z.mod_pos_bound (255 - b + c) 256 ltac:(lia)).
    pose proof (Z.mod_pos_bound (N - 1 - le_val a + q) N P). pose proof (Z.div_mod (N - 1 - le_val a + q) N ltac:(lia)) as D2.
    apply (Z.mod_unique_pos _ _ ((N - 1 - le_val a + q) / N)); nia.
Qed.
Lemma negate_val a : bytes_ok a -> bytes_ok (negate a) /\ List.length (negate a) = List.length a /\
  le_val (negate a) = (- le_val a) mod 256 ^ Z.of_nat (List.length a).
Proof.
  intros H. destruct (negate_loop_val a 1 H ltac:(lia)) as (I1 & I2 & I3). split; [exact I1|]. split; [exact I2|]. unfold negate. rewrite I3.
  assert (P : 0 < 256 ^ Z.of_nat (List.length a)) by (apply Z.pow_pos_nonneg; lia).
  replace (256 ^ Z.of_nat (List.length a) - 1 - le_val a + 1) with (- le_val a + 1 * 256 ^ Z.of_nat (List.length a)) by lia. apply Z_mod_plus_full.
Qed.
Lemma land128 b : is_byte b -> negb (Z.land b 128 =? 0) = (128 <=? b).
Proof.
  intros H. apply Bool.eqb_prop. exact (byte_sweep (fun b => Bool.eqb (negb (Z.land b 128 =? 0)) (128 <=? b)) ltac:(vm_compute; reflexivity) b H).
Qed.
Lemma is_negative_val a : bytes_ok a -> a <> [] -> is_negative a = (256 ^ Z.of_nat (List.length a) <=? 2 * le_val a).
Proof.
  induction a as [|b a IH]; intros H Hn; [congruence|]. inversion H as [|? ? Hb Ha]; subst. unfold is_byte in Hb. unfold is_negative in *.
  cbn [List.length le_val]. rewrite Nat2Z.inj_succ, Z.pow_succ_r by lia.
  destruct a as [|c a].
  - cbn [last List.length le_val Z.of_nat]. rewrite Z.pow_0_r. rewrite land128 by auto. lia.
  - change (last (b :: c :: a) 0) with (last (c :: a) 0). rewrite IH by (auto; discriminate). remember (c :: a) as l.
    assert (E : exists h, 256 ^ Z.of_nat (List.length l) = 2 * h).
    { exists (128 * 256 ^ Z.of_nat (List.length a)). rewrite Heql. cbn [List.length]. rewrite Nat2Z.inj_succ, Z.pow_succ_r by lia. lia. }
    destruct E as [h Eh]. rewrite Eh. lia.
Qed.

Definition tl10 (c : Z) : list Z := map (fun x => x - 48) (push10 10 c).
Lemma push10_spec fuel : forall c, 0 <= c < 10 ^ Z.of_nat fuel ->
  canonical 10 (map (fun x => x - 48) (push10 fuel c)) /\ lval 10 (map (fun x => x - 48) (push10 fuel c)) = c.
Proof.
  induction fuel as [|fuel IH]; intros c H.
  { cbn [Z.of_nat] in H. rewrite Z.pow_0_r in H. cbn [push10 map lval]. split; [apply canonical_nil|lia]. }
  cbn [push10]. destruct (c =? 0) eqn:E; [split; [apply canonical_nil|cbn [map lval]; lia]|].
  rewrite Z.rem_mod_nonneg, Z.quot_div_nonneg by lia.
  rewrite Nat2Z.inj_succ, Z.pow_succ_r in H by lia.
  assert (Hq : 0 <= c / 10 < 10 ^ Z.of_nat fuel) by (split; [apply Z.div_pos; lia|apply Z.div_lt_upper_bound; lia]).
  destruct (IH _ Hq) as [[I1 I2] I3]. cbn [map]. replace (48 + c mod 10 - 48) with (c mod 10) by lia. split; [|cbn [lval]; rewrite I3; pose proof (Z.div_mod c 10); lia].
  split; [constructor; auto; apply Z.mod_pos_bound; lia|].
  destruct (map _ (push10 fuel (c / 10))) as [|y q] eqn:Eq.
  - cbn [lval] in I3. cbn [last]. pose proof (Z.div_mod c 10). lia.
  - rewrite last_cons_ne by discriminate. exact I2.
Qed.
Lemma tl10_ok c : 0 <= c < 256 -> canonical 10 (tl10 c) /\ lval 10 (tl10 c) = c.
Proof. intros H. apply push10_spec. change (10 ^ Z.of_nat 10) with 10000000000. lia. Qed.
Definition dchar (d : Z) : Z := 48 + d.
Lemma push10_chars fuel c : map dchar (map (fun x => x - 48) (push10 fuel c)) = push10 fuel c.
Proof. rewrite map_map. rewrite <- (map_id (push10 fuel c)) at 2. apply map_ext. intros x. unfold dchar. lia. Qed.
Lemma mul256_dec_mstep r : forall c, digits_ok 10 r -> 0 <= c < 256 -> mul256_dec c (map dchar r) = map dchar (mstep 10 256 tl10 c r).
Proof.
  induction r as [|d r IH]; intros c Hr Hc; [cbn [map mul256_dec mstep]; symmetry; apply push10_chars|]. inversion Hr as [|? ? Hd Hr']; subst.
  cbn [map mul256_dec mstep]. cbv zeta. replace (dchar d - 48) with d by (unfold dchar; lia). rewrite !Z.shiftl_mul_pow2 by lia. change (2 ^ 8) with 256.
  rewrite Z.rem_mod_nonneg, Z.quot_div_nonneg by lia. f_equal. apply IH; auto. split; [apply Z.div_pos; lia|apply Z.div_lt_upper_bound; lia].
Qed.
(** Canonical, except that zero is written "0". *)
Definition dcanon (l : list Z) : Prop := digits_ok 10 l /\ (l = [0] \/ l <> [] /\ last l 1 <> 0).
Lemma dcanon_step l c : dcanon l -> 0 <= c < 256 -> dcanon (mstep 10 256 tl10 c l).
Proof.
  intros [H1 H2] Hc. split; [apply mstep_digits; auto; try lia; apply tl10_ok|]. destruct H2 as [->|[Hn Hl]].
  - cbn [mstep]. replace (0 * 256 + c) with c by lia.
    assert (Hq : 0 <= c / 10 < 256) by lia. destruct (tl10_ok _ Hq) as [[T1 T2] T3].
    destruct (tl10 (c / 10)) as [|y q] eqn:Eq.
    + cbn [lval] in T3. destruct (Z.eq_dec (c mod 10) 0) as [Z0|Z0]; [left; rewrite Z0; reflexivity|right; split; [discriminate|cbn [last]; exact Z0]].
    + right. split; [discriminate|]. rewrite last_cons_ne by discriminate. exact T2.
  - right. split; [destruct l; [congruence|discriminate]|]. apply mstep_nonzero; auto; try lia. apply tl10_ok.
Qed.
Lemma dec_unique s n : forallb is_digit s = true -> dval s = n -> (s = [48] \/ exists c d, s = c :: d /\ c <> 48) -> s = dec n.
Proof.
  intros H Hv Hc. assert (Hn : 0 <= n) by (pose proof (dval_bound s H); lia).
  destruct (dec_spec n Hn) as (D1 & D2 & D3 & D4 & D5).
  assert (K : forall c d, forallb is_digit (c :: d) = true -> c <> 48 -> 10 ^ Z.of_nat (List.length d) <= dval (c :: d) < 10 * 10 ^ Z.of_nat (List.length d)).
  { intros c d Hd Hne. cbn [forallb] in Hd. apply andb_prop in Hd as [Hd1 Hd2]. apply is_digit_range in Hd1. rewrite dval_cons. pose proof (dval_bound d Hd2). nia. }
  destruct Hc as [->|(c & d & -> & Hne)].
  - assert (n = 0) by (rewrite <- Hv; reflexivity). symmetry. auto.
  - pose proof (K c d H Hne) as K1. rewrite Hv in K1. assert (0 < n) by (assert (0 < 10 ^ Z.of_nat (List.length d)) by (apply Z.pow_pos_nonneg; lia); lia).
    destruct D5 as (c' & d' & E & Hne'); [lia|]. rewrite E in *. pose proof (K c' d' D1 Hne') as K2. rewrite D2 in K2.
    assert (L : List.length d = List.length d').
    { destruct (Nat.lt_trichotomy (List.length d) (List.length d')) as [L|[L|L]]; auto; exfalso.
      - assert (10 ^ Z.of_nat (S (List.length d)) <= 10 ^ Z.of_nat (List.length d')) by (apply Z.pow_le_mono_r; lia). rewrite Nat2Z.inj_succ, Z.pow_succ_r in H1 by lia. lia.
      - assert (10 ^ Z.of_nat (S (List.length d')) <= 10 ^ Z.of_nat (List.length d)) by (apply Z.pow_le_mono_r; lia). rewrite Nat2Z.inj_succ, Z.pow_succ_r in H1 by lia. lia. }
    apply dval_inj; auto; [cbn [List.length]; lia|congruence].
Qed.
Lemma dchars_value l : digits_ok 10 l -> forallb is_digit (map dchar l) = true /\ dval (map dchar l) = from_val 10 0 l.
Proof.
  intros H. split; [induction H; cbn [map forallb]; [reflexivity|]; rewrite IHForall, Bool.andb_true_r; apply is_digit_range; unfold dchar; lia|].
  unfold dval, from_val. generalize 0. induction l as [|d l IH]; intros a; [reflexivity|]. inversion H; subst. cbn [map fold_left]. rewrite <- IH by auto. f_equal. unfold dchar. lia.
Qed.
Lemma decimal_fold bin : forall l, bytes_ok bin -> dcanon l ->
  exists l', fold_left (fun r b => mul256_dec b r) bin (map dchar l) = map dchar l' /\ dcanon l' /\ lval 10 l' = from_val 256 (lval 10 l) bin.
Proof.
  induction bin as [|b bin IH]; intros l Hb Hl; [exists l; auto|]. inversion Hb as [|? ? Hb1 Hb2]; subst. cbn [fold_left]. unfold from_val. cbn [fold_left].
  rewrite mul256_dec_mstep by (auto; apply Hl). destruct (IH (mstep 10 256 tl10 b l)) as (l' & E & C & V); auto using dcanon_step.
  exists l'. split; [exact E|]. split; [exact C|]. rewrite V. unfold from_val. f_equal. rewrite (mstep_lval 10 ltac:(lia) 256 ltac:(lia) tl10 tl10_ok) by (auto; apply Hl). lia.
Qed.
Lemma lval256_le_val b : lval 256 b = le_val b.
Proof. induction b as [|x b IH]; [reflexivity|]. cbn [lval le_val]. rewrite IH. lia. Qed.
Lemma binary_to_decimal_dec bin : bytes_ok bin -> binary_to_decimal bin = dec (le_val bin).
Proof.
  intros H. unfold binary_to_decimal. change [48] with (map dchar [0]).
  destruct (decimal_fold (rev bin) [0]) as (l & E & (C1 & C2) & V); [apply Forall_rev; auto|split; [repeat constructor; lia|left; reflexivity]|].
  rewrite E, <- map_rev. assert (Dr : digits_ok 10 (rev l)) by (apply Forall_rev; exact C1). destruct (dchars_value _ Dr) as [F1 F2].
  apply dec_unique; [exact F1| |].
  - rewrite F2, from_val_lval, V. change (lval 10 [0]) with 0. rewrite from_val_lval, lval256_le_val. reflexivity.
  - destruct C2 as [->|[Hn Hl]]; [left; reflexivity|right].
    destruct (exists_last Hn) as (l0 & a & ->). rewrite rev_app_distr. cbn [rev app map]. exists (dchar a), (map dchar (rev l0)). split; [reflexivity|].
    rewrite last_last in Hl. unfold dchar. lia.
Qed.
