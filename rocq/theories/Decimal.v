(** * Decimal: decimal notation of natural numbers, shared by several models *)
From Verif Require Import Base.

Definition is_digit (c : Z) : bool := (48 <=? c) && (c <=? 57).

(** The number written by a string of digits (most significant first). *)
Definition dval (s : bytes) : Z := fold_left (fun a c => a * 10 + (c - 48)) s 0.

(** Decimal notation without leading zeros of a number [>= 0]: std::to_string,
    and the do-while digit loops of the code. *)
Fixpoint dec_loop (fuel : nat) (n : Z) (acc : bytes) : bytes :=
  match fuel with
  | O => acc
  | S f => let acc' := (48 + n mod 10) :: acc in
           if n / 10 =? 0 then acc' else dec_loop f (n / 10) acc'
  end.
Definition dec (n : Z) : bytes := dec_loop (S (Z.to_nat (Z.log2 n))) n [].

Lemma dval_from s : forall a, fold_left (fun a c => a * 10 + (c - 48)) s a = a * 10 ^ Z.of_nat (List.length s) + dval s.
Proof.
  unfold dval. induction s as [|c s IH]; intros a; cbn [fold_left List.length]; [cbn; lia|].
  rewrite IH, (IH (0 * 10 + (c - 48))), Nat2Z.inj_succ, Z.pow_succ_r by lia. ring.
Qed.
Lemma dval_cons c s : dval (c :: s) = (c - 48) * 10 ^ Z.of_nat (List.length s) + dval s.
Proof. unfold dval at 1. cbn [fold_left]. rewrite dval_from. ring. Qed.
Lemma dval_app a b : dval (a ++ b) = dval a * 10 ^ Z.of_nat (List.length b) + dval b.
Proof. unfold dval at 1. rewrite fold_left_app. apply dval_from. Qed.
Lemma dval_snoc a c : dval (a ++ [c]) = dval a * 10 + (c - 48).
Proof. rewrite dval_app. cbn [List.length]. unfold dval at 2. cbn. lia. Qed.
Lemma is_digit_range c : is_digit c = true <-> 48 <= c <= 57.
Proof. unfold is_digit. lia. Qed.
Lemma dval_bound s : forallb is_digit s = true -> 0 <= dval s < 10 ^ Z.of_nat (List.length s).
Proof.
  induction s as [|c s IH]; [cbn; lia|]. cbn [forallb]. rewrite andb_true_iff, is_digit_range.
  intros [Hc Hs]. specialize (IH Hs). rewrite dval_cons. cbn [List.length].
  rewrite Nat2Z.inj_succ, Z.pow_succ_r by lia.
  pose proof (Z.pow_pos_nonneg 10 (Z.of_nat (List.length s)) ltac:(lia) ltac:(lia)). nia.
Qed.

Lemma mod10_digit n : is_digit (48 + n mod 10) = true.
Proof. apply is_digit_range. pose proof (Z.mod_pos_bound n 10). lia. Qed.

Lemma dec_loop_spec fuel : forall n acc, 0 <= n < 2 ^ Z.of_nat fuel -> (0 < fuel)%nat ->
  exists d, dec_loop fuel n acc = d ++ acc /\ forallb is_digit d = true /\ dval d = n /\ d <> [] /\
    (n = 0 -> d = [48]) /\ (0 < n -> exists c d', d = c :: d' /\ c <> 48).
Proof.
  induction fuel as [|f IH]; intros n acc Hn Hf; [lia|]. cbn [dec_loop].
  destruct (Z.eqb_spec (n / 10) 0) as [Z0|NZ].
  - exists [48 + n mod 10]. assert (n < 10) by (pose proof (Z.div_mod n 10 ltac:(lia)); pose proof (Z.mod_pos_bound n 10 ltac:(lia)); lia).
    rewrite Z.mod_small by lia. split; [reflexivity|]. split; [|split; [|split; [|split]]].
    + cbn [forallb]. rewrite andb_true_r. apply is_digit_range. lia.
    + unfold dval. cbn [fold_left]. lia.
    + discriminate.
    + intros ->. reflexivity.
    + intros. exists (48 + n), []. split; [reflexivity|lia].
  - assert (Hn' : 0 <= n / 10 < 2 ^ Z.of_nat f).
    { split; [apply Z.div_pos; lia|]. rewrite Nat2Z.inj_succ, Z.pow_succ_r in Hn by lia.
      apply Z.div_lt_upper_bound; lia. }
    assert (0 < f)%nat. { destruct f; [cbn in Hn'; lia|lia]. }
    destruct (IH (n / 10) ((48 + n mod 10) :: acc) Hn' ltac:(auto)) as (d & E & F & V & N & _ & L).
    exists (d ++ [48 + n mod 10]). rewrite E, <- app_assoc. repeat split.
    + rewrite forallb_app, F. cbn [forallb]. now rewrite mod10_digit.
    + rewrite dval_snoc, V. pose proof (Z.div_mod n 10). lia.
    + destruct d; discriminate.
    + intros ->. cbn in NZ. lia.
    + intros _. destruct L as (c & d' & E' & C); [lia|]. exists c, (d' ++ [48 + n mod 10]). rewrite E'. auto.
Qed.

Lemma dec_spec n : 0 <= n -> forallb is_digit (dec n) = true /\ dval (dec n) = n /\ dec n <> [] /\
  (n = 0 -> dec n = [48]) /\ (0 < n -> exists c d, dec n = c :: d /\ c <> 48).
Proof.
  intros Hn. unfold dec.
  destruct (dec_loop_spec (S (Z.to_nat (Z.log2 n))) n []) as (d & E & H).
  - split; [lia|]. rewrite Nat2Z.inj_succ. rewrite Z2Nat.id by apply Z.log2_nonneg.
    destruct (Z.eq_dec n 0); [subst; cbn; lia|]. apply Z.log2_spec. lia.
  - lia.
  - rewrite E, app_nil_r. tauto.
Qed.
Lemma dec_digits n : 0 <= n -> forallb is_digit (dec n) = true.
Proof. intros H. apply (dec_spec n H). Qed.
Lemma dec_val n : 0 <= n -> dval (dec n) = n.
Proof. intros H. apply (dec_spec n H). Qed.
Lemma dec_nonempty n : 0 <= n -> dec n <> [].
Proof. intros H. apply (dec_spec n H). Qed.
Lemma digits_bytes s : forallb is_digit s = true -> bytes_ok s.
Proof.
  rewrite forallb_forall. intros H. apply Forall_forall. intros c Hc. specialize (H c Hc).
  apply is_digit_range in H. unfold is_byte. lia.
Qed.

(** Number of digits. *)
Lemma dec_length n k : 0 <= n < 10 ^ Z.of_nat k -> (0 < k)%nat -> (List.length (dec n) <= k)%nat.
Proof.
  intros Hn Hk. destruct (dec_spec n ltac:(lia)) as (F & V & N & Z0 & L).
  destruct (Z.eq_dec n 0) as [E|E]; [rewrite (Z0 E); cbn; lia|].
  destruct (L ltac:(lia)) as (c & d & Ed & C). rewrite Ed in *.
  cbn [forallb] in F. apply andb_true_iff in F. destruct F as [Fc Fd]. apply is_digit_range in Fc.
  rewrite dval_cons in V. pose proof (dval_bound d Fd) as B.
  destruct (Nat.leb_spec (List.length (c :: d)) k) as [X|X]; auto. exfalso. cbn [List.length] in X.
  assert (10 ^ Z.of_nat k <= 10 ^ Z.of_nat (List.length d)) by (apply Z.pow_le_mono_r; lia). nia.
Qed.

(** Exactly [k] digits, zero padded: the value modulo 10^k. *)
Fixpoint decn (k : nat) (n : Z) : bytes :=
  match k with O => [] | S k' => decn k' (n / 10) ++ [48 + n mod 10] end.
Lemma decn_length k : forall n, List.length (decn k n) = k.
Proof. induction k; intros; cbn [decn]; auto. rewrite app_length, IHk. cbn. lia. Qed.
Lemma decn_digits k : forall n, forallb is_digit (decn k n) = true.
Proof. induction k; intros; cbn [decn]; auto. rewrite forallb_app, IHk. cbn [forallb]. now rewrite mod10_digit. Qed.
Lemma decn_val k : forall n, 0 <= n -> dval (decn k n) = n mod 10 ^ Z.of_nat k.
Proof.
  induction k as [|k IH]; intros n Hn; cbn [decn].
  - cbn. now rewrite Z.mod_1_r.
  - rewrite dval_snoc, IH by (apply Z.div_pos; lia).
    rewrite Nat2Z.inj_succ, Z.pow_succ_r by lia.
    rewrite Z.rem_mul_r by (try lia; apply Z.pow_nonzero; lia). lia.
Qed.
(** Digit strings of equal length are determined by their value. *)
Lemma dval_inj a : forall b, List.length a = List.length b -> forallb is_digit a = true -> forallb is_digit b = true ->
  dval a = dval b -> a = b.
Proof.
  induction a as [|x a IH]; intros [|y b] L Fa Fb E; try discriminate; auto.
  injection L as L. cbn [forallb] in Fa, Fb. apply andb_true_iff in Fa, Fb. destruct Fa as [Fx Fa], Fb as [Fy Fb].
  rewrite !dval_cons in E. rewrite <- L in E. pose proof (dval_bound a Fa). pose proof (dval_bound b Fb) as Bb.
  rewrite <- L in Bb. apply is_digit_range in Fx, Fy.
  set (P := 10 ^ Z.of_nat (List.length a)) in *.
  assert (x = y) by nia. subst y. f_equal. apply IH; auto. lia.
Qed.
Global Arguments dec : simpl never.
Global Arguments decn : simpl never.
Global Arguments dval : simpl never.
