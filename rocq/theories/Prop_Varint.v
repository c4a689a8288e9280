(** * C45: the variable length integer wrappers *)
From Verif Require Import Base Stream StreamFacts Prop_Bin Varint.

(** The values of an integer type. *)
Definition values (t : int_type) (x : Z) : Prop := if is_signed t then - 2 ^ (bits t - 1) <= x < 2 ^ (bits t - 1) else 0 <= x < 2 ^ bits t.
Lemma convert_int_same t x : 0 < bits t -> values t x -> convert_int t x = x.
Proof.
  intros B V. unfold values, convert_int in *. destruct (is_signed t).
  - unfold wrap_s. exact (to_signed_unsigned (bits t) x B V).
  - now apply Z.mod_small.
Qed.
Lemma convert_int_values t x : 0 < bits t -> values t (convert_int t x) /\ (convert_int t x - x) mod 2 ^ bits t = 0.
Proof.
  intros B. assert (P : 2 ^ bits t = 2 * 2 ^ (bits t - 1)) by (rewrite <- Z.pow_succ_r by lia; f_equal; lia). assert (Q : 0 < 2 ^ (bits t - 1)) by (apply Z.pow_pos_nonneg; lia).
  unfold values, convert_int. pose proof (Z.mod_pos_bound x (2 ^ bits t) ltac:(lia)) as M. pose proof (Z.div_mod x (2 ^ bits t) ltac:(lia)) as D.
  destruct (is_signed t); [unfold wrap_s, to_signed; destruct (Z.ltb_spec (x mod 2 ^ bits t) (2 ^ (bits t - 1)))|]; (split; [lia|]).
  - replace (x mod 2 ^ bits t - x) with (- (x / 2 ^ bits t) * 2 ^ bits t) by lia. apply Z.mod_mul. lia.
  - replace (x mod 2 ^ bits t - 2 ^ bits t - x) with ((- (x / 2 ^ bits t) - 1) * 2 ^ bits t) by lia. apply Z.mod_mul. lia.
  - replace (x mod 2 ^ bits t - x) with (- (x / 2 ^ bits t) * 2 ^ bits t) by lia. apply Z.mod_mul. lia.
Qed.
(** Construction from any integer and conversion to any integer type keep every value both types
    have; otherwise they keep it modulo the width of the target. *)
Theorem C45_unsigned_conversions x : values uint32 (unsigned_int_of x) /\ (unsigned_int_of x - x) mod 2 ^ 32 = 0 /\
  (values uint32 x -> unsigned_int_of x = x) /\
  (forall t v, 0 < bits t -> values uint32 v -> values t (unsigned_int_to t v) /\ (unsigned_int_to t v - v) mod 2 ^ bits t = 0 /\ (values t v -> unsigned_int_to t v = v)).
Proof.
  split; [now apply (convert_int_values uint32)|]. split; [now apply (convert_int_values uint32)|]. split; [intros H; now apply (convert_int_same uint32)|].
  intros t v B V. destruct (convert_int_values t v B) as [A C]. split; [exact A|]. split; [exact C|]. now apply convert_int_same.
Qed.
Print Assumptions C45_unsigned_conversions.
Theorem C45_signed_conversions x : values int32 (signed_int_of x) /\ (signed_int_of x - x) mod 2 ^ 32 = 0 /\ (values int32 x -> signed_int_to (signed_int_of x) = x).
Proof. split; [now apply (convert_int_values int32)|]. split; [now apply (convert_int_values int32)|]. intros H. now apply (convert_int_same int32). Qed.
Print Assumptions C45_signed_conversions.
(** The operators are those of the integers. *)
Theorem C45_operators a b :
  (u_eq a b = true <-> a = b) /\ (u_ne a b = true <-> a <> b) /\ (u_lt a b = true <-> a < b) /\ (u_ge a b = true <-> a >= b) /\
  (s_eq a b = true <-> a = b) /\ (s_ne a b = true <-> a <> b) /\ (s_lt a b = true <-> a < b) /\ (s_ge a b = true <-> a >= b).
Proof. unfold u_eq, u_ne, u_lt, u_ge, s_eq, s_ne, s_lt, s_ge. repeat split; lia. Qed.
Print Assumptions C45_operators.
(** Increment: one more, except for the largest value, where it is undefined. *)
Theorem C45_increment v : values int32 v ->
  (v < 2 ^ 31 - 1 -> signed_int_incr v = Ok (v + 1) /\ values int32 (v + 1) /\ signed_int_post_incr v = Ok (v, v + 1)) /\
  (v = 2 ^ 31 - 1 -> signed_int_incr v = Undef "signed overflow" /\ signed_int_post_incr v = Undef "signed overflow").
Proof.
  intros V. unfold values in *. cbn [is_signed int32 bits] in *. change (32 - 1) with 31 in *. unfold signed_int_post_incr, signed_int_incr, fits_s. change (32 - 1) with 31. split.
  - intros L. assert ((- 2 ^ 31 <=? v + 1) && (v + 1 <? 2 ^ 31) = true) as -> by lia. cbn [bind]. unfold signed_int_of. rewrite (convert_int_same int32 v eq_refl V). repeat split; lia.
  - intros ->. split; reflexivity.
Qed.
Print Assumptions C45_increment.
(** Binary: every value is read back, from at most five bytes. *)
Lemma to_bin_zigzag S v s : signed_int_to_bin S v s = varint32_to_bin S v s.
Proof. reflexivity. Qed.
Theorem C45_binary v rest : bytes_ok rest ->
  (values uint32 v -> exists b, unsigned_int_to_bin vector_stream v [] = Ok b /\ unsigned_int_from_bin (b ++ rest) = Ok (v, rest) /\ (1 <= List.length b <= 5)%nat) /\
  (values int32 v -> exists b, signed_int_to_bin vector_stream v [] = Ok b /\ signed_int_from_bin (b ++ rest) = Ok (v, rest) /\ (1 <= List.length b <= 5)%nat).
Proof.
  intros R. split; intros V.
  - destruct (C01_varuint32_roundtrip v rest V R) as (b & A & B & _ & C & _). exists b. auto.
  - destruct (C01_varint32_roundtrip v rest V R) as (b & A & B & C & _). exists b. rewrite to_bin_zigzag. auto.
Qed.
Print Assumptions C45_binary.
Example C45_example : unsigned_int_of (-1) = 4294967295 /\ unsigned_int_to (IntType true 16) 4294967295 = -1 /\ values int32 (2 ^ 31 - 1) /\ signed_int_post_incr 41 = Ok (41, 42).
Proof. repeat split; vm_compute; congruence. Qed.
