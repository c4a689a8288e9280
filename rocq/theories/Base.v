(** * Base: bytes, results, errors

    Shared vocabulary of the model. No theorem of interest lives here. *)
From Coq Require Export String Ascii.
From Coq Require Export ZArith List Bool Lia Znumtheory.
From Coq Require Export ZifyBool ZifyNat ZifyN.
Export ListNotations.
Open Scope Z_scope.
Open Scope list_scope.

(** Errors. One constructor per message the code can throw.
    - include/eosio/stream.hpp:15-51      (stream_error)
    - include/eosio/from_json.hpp:17-127  (from_json_error)
    - include/eosio/abi.hpp:13-39         (abi_error)
    - std::length_error from std::vector::resize, and the literal
      messages of src/crypto.cpp, include/eosio/asset.hpp, symbol.hpp, opaque.hpp. *)
Inductive error : Set :=
(* stream_error *)
| E_overrun | E_underrun | E_float_error | E_varuint_too_big
| E_invalid_varuint_encoding | E_bad_variant_index | E_invalid_asset_format
| E_array_size_mismatch | E_invalid_name_char | E_invalid_name_char13
| E_name_too_long | E_json_writer_error
(* from_json_error *)
| E_expected_end | E_expected_null | E_expected_bool | E_expected_string
| E_expected_hex_string | E_hex_string_incorrect_length | E_invalid_signature
| E_invalid_name | E_expected_start_object | E_expected_key
| E_expected_end_object | E_expected_start_array | E_expected_end_array
| E_expected_positive_uint | E_expected_field | E_expected_variant
| E_expected_public_key | E_expected_private_key | E_expected_signature
| E_expected_number | E_expected_int | E_expected_time_point
| E_expected_symbol_code | E_expected_symbol | E_expected_asset
| E_invalid_type_for_variant | E_unexpected_field | E_number_out_of_range
| E_from_json_no_pair
| E_document_empty | E_document_root_not_singular | E_value_invalid
| E_object_miss_name | E_object_miss_colon
| E_object_miss_comma_or_curly_bracket | E_array_miss_comma_or_square_bracket
| E_string_unicode_escape_invalid_hex | E_string_unicode_surrogate_invalid
| E_string_escape_invalid | E_string_miss_quotation_mark
| E_string_invalid_encoding | E_number_too_big | E_number_miss_fraction
| E_number_miss_exponent | E_terminated | E_unspecific_syntax_error
(* abi_error *)
| E_recursion_limit_reached | E_invalid_nesting | E_unknown_type
| E_missing_name | E_redefined_type | E_base_not_a_struct
| E_extension_typedef | E_bad_abi
(* others *)
| E_length_error          (* std::length_error thrown by vector::resize *)
(* the literal messages of include/eosio/{asset,symbol,time,ship_protocol}.hpp; their texts are in Capi.v [what] *)
| E_addition_overflow | E_addition_underflow | E_add_symbol_mismatch | E_subtract_symbol_mismatch | E_block_timestamp_overflow | E_compare_symbol_mismatch | E_divide_by_zero | E_invalid_symbol_name | E_asset_magnitude | E_multiplication_overflow | E_multiplication_underflow | E_symbol_code_uppercase | E_signed_division_overflow | E_symbol_code_too_long | E_subtraction_overflow | E_subtraction_underflow | E_type_mismatch | E_unknown_status.

(** Result of running a piece of code: a value, a C++ exception, or C++
    undefined behaviour (with a label naming its reason). *)
Inductive res (A : Type) : Type :=
| Ok (a : A)
| Err (e : error)
| Undef (why : string).
Arguments Ok {A} a.
Arguments Err {A} e.
Arguments Undef {A} why.

Definition bind {A B} (m : res A) (f : A -> res B) : res B :=
  match m with
  | Ok a => f a
  | Err e => Err e
  | Undef w => Undef w
  end.
Notation "'let*' x ':=' m 'in' k" := (bind m (fun x => k))
  (at level 200, x pattern, m at level 100, k at level 200, right associativity).

(** [check( b, msg )]: include/eosio/check.hpp:42-178 (throws std::runtime_error). *)
Definition check (b : bool) (e : error) : res unit := if b then Ok tt else Err e.

Lemma bind_Ok {A B} (m : res A) (f : A -> res B) b :
  bind m f = Ok b -> exists a, m = Ok a /\ f a = Ok b.
Proof. destruct m; cbn; intros H; try discriminate. eauto. Qed.

Definition is_ok {A} (m : res A) : bool := match m with Ok _ => true | _ => false end.

(** ** Bytes *)
Definition bytes := list Z.
Definition is_byte (b : Z) : Prop := 0 <= b < 256.
Definition is_byteb (b : Z) : bool := (0 <=? b) && (b <? 256).
Definition bytes_ok (l : bytes) : Prop := Forall is_byte l.
Definition bytes_okb (l : bytes) : bool := forallb is_byteb l.

Lemma is_byteb_spec b : is_byteb b = true <-> is_byte b.
Proof. unfold is_byteb, is_byte. lia. Qed.
Lemma bytes_okb_spec l : bytes_okb l = true <-> bytes_ok l.
Proof.
  unfold bytes_okb, bytes_ok. rewrite forallb_forall, Forall_forall.
  split; intros H x Hx; apply is_byteb_spec; auto.
Qed.
Lemma bytes_ok_app a b : bytes_ok (a ++ b) <-> bytes_ok a /\ bytes_ok b.
Proof. apply Forall_app. Qed.
Lemma bytes_ok_cons a b : bytes_ok (a :: b) <-> is_byte a /\ bytes_ok b.
Proof. split; [intros H; inversion H; auto | intros []; constructor; auto]. Qed.
Lemma bytes_ok_nil : bytes_ok [].
Proof. constructor. Qed.
Global Hint Resolve bytes_ok_nil : core.

(** Literal C++ strings. *)
Definition chr (a : ascii) : Z := Z.of_N (N_of_ascii a).
Fixpoint str (s : string) : bytes :=
  match s with
  | EmptyString => []
  | String a s' => chr a :: str s'
  end.
Lemma chr_byte a : is_byte (chr a).
Proof.
  unfold chr, is_byte. pose proof (N_ascii_bounded a). lia.
Qed.
Lemma str_ok s : bytes_ok (str s).
Proof. induction s; cbn; constructor; auto using chr_byte. Qed.

(** Decidable equality of byte strings. *)
Fixpoint beq (a b : bytes) : bool :=
  match a, b with
  | [], [] => true
  | x :: a', y :: b' => (x =? y) && beq a' b'
  | _, _ => false
  end.
Lemma beq_eq a b : beq a b = true <-> a = b.
Proof.
  revert b; induction a as [|x a IH]; intros [|y b]; cbn; try (split; congruence).
  rewrite andb_true_iff, Z.eqb_eq, IH. split; [intros []; congruence | intros H; inversion H; auto].
Qed.
Lemma beq_refl a : beq a a = true.
Proof. apply beq_eq; reflexivity. Qed.
Lemma beq_neq a b : beq a b = false <-> a <> b.
Proof.
  destruct (beq a b) eqn:E.
  - apply beq_eq in E. split; congruence.
  - split; auto. intros _ H. subst. rewrite beq_refl in E. discriminate.
Qed.

(** Lexicographic order of byte strings as compared by
    std::string::compare / memcmp+length (unsigned bytes, prefix first). *)
Fixpoint lex_ltb (a b : bytes) : bool :=
  match a, b with
  | [], [] => false
  | [], _ :: _ => true
  | _ :: _, [] => false
  | x :: a', y :: b' => (x <? y) || ((x =? y) && lex_ltb a' b')
  end.

(** Little-endian value of a byte string and its inverse. *)
Fixpoint le_val (l : bytes) : Z :=
  match l with
  | [] => 0
  | b :: l' => b + 256 * le_val l'
  end.
Fixpoint le_bytes (n : nat) (v : Z) : bytes :=
  match n with
  | O => []
  | S n' => (v mod 256) :: le_bytes n' (v / 256)
  end.

Lemma le_bytes_length n v : List.length (le_bytes n v) = n.
Proof. revert v; induction n; cbn; auto. Qed.
Lemma le_bytes_ok n v : bytes_ok (le_bytes n v).
Proof.
  revert v; induction n as [|n IH]; cbn; intros v; constructor; [|apply IH].
  unfold is_byte. pose proof (Z.mod_pos_bound v 256 ltac:(lia)). lia.
Qed.
Lemma le_val_bound l : bytes_ok l -> 0 <= le_val l < 256 ^ Z.of_nat (List.length l).
Proof.
  induction 1 as [|b l Hb _ IH]; [cbn; lia|].
  cbn [le_val List.length]. rewrite Nat2Z.inj_succ, Z.pow_succ_r by lia.
  unfold is_byte in Hb. lia.
Qed.
Lemma le_val_le_bytes n v : 0 <= v < 256 ^ Z.of_nat n -> le_val (le_bytes n v) = v.
Proof.
  revert v; induction n as [|n IH]; intros v Hv.
  - cbn in *. lia.
  - cbn [le_bytes le_val]. rewrite Nat2Z.inj_succ, Z.pow_succ_r in Hv by lia.
    rewrite IH.
    + pose proof (Z.div_mod v 256). lia.
    + split; [apply Z.div_pos; lia | apply Z.div_lt_upper_bound; lia].
Qed.
Lemma le_val_le_bytes_mod n v : le_val (le_bytes n v) = v mod 256 ^ Z.of_nat n.
Proof.
  revert v; induction n as [|n IH]; intros v.
  - cbn. now rewrite Z.mod_1_r.
  - cbn [le_bytes le_val]. rewrite IH, Nat2Z.inj_succ, Z.pow_succ_r by lia.
    rewrite Z.rem_mul_r by lia. reflexivity.
Qed.
Lemma le_bytes_le_val l n : bytes_ok l -> n = List.length l -> le_bytes n (le_val l) = l.
Proof.
  intros H ->. induction H as [|b l Hb _ IH]; [reflexivity|].
  cbn [List.length le_bytes le_val]. unfold is_byte in Hb. f_equal.
  - rewrite Z.mul_comm, Z.mod_add by lia. apply Z.mod_small; lia.
  - rewrite Z.mul_comm, Z.div_add by lia. rewrite (Z.div_small b) by lia. exact IH.
Qed.

(** Two's complement: the value of the [bits]-bit pattern [u] read as signed,
    and the pattern of a signed value. *)
Definition to_signed (bits u : Z) : Z := if u <? 2 ^ (bits - 1) then u else u - 2 ^ bits.
Definition to_unsigned (bits z : Z) : Z := z mod 2 ^ bits.
Definition wrap_s (bits z : Z) : Z := to_signed bits (z mod 2 ^ bits).
Definition fits_s (bits z : Z) : bool := (- 2 ^ (bits - 1) <=? z) && (z <? 2 ^ (bits - 1)).
Definition fits_u (bits z : Z) : bool := (0 <=? z) && (z <? 2 ^ bits).

Lemma to_signed_unsigned bits z :
  0 < bits -> - 2 ^ (bits - 1) <= z < 2 ^ (bits - 1) -> to_signed bits (to_unsigned bits z) = z.
Proof.
  intros Hb Hz. unfold to_signed, to_unsigned.
  assert (E : 2 ^ bits = 2 * 2 ^ (bits - 1)).
  { replace bits with (Z.succ (bits - 1)) at 1 by lia. apply Z.pow_succ_r. lia. }
  assert (0 < 2 ^ (bits - 1)) by (apply Z.pow_pos_nonneg; lia).
  destruct (Z_lt_dec z 0).
  - replace (z mod 2 ^ bits) with (z + 2 ^ bits).
    + destruct (Z.ltb_spec (z + 2 ^ bits) (2 ^ (bits - 1))); lia.
    + apply Z.mod_unique with (-1); lia.
  - rewrite Z.mod_small by lia. destruct (Z.ltb_spec z (2 ^ (bits - 1))); lia.
Qed.
Lemma to_signed_range bits u :
  0 < bits -> 0 <= u < 2 ^ bits -> - 2 ^ (bits - 1) <= to_signed bits u < 2 ^ (bits - 1).
Proof.
  intros Hb Hu. unfold to_signed.
  assert (E : 2 ^ bits = 2 * 2 ^ (bits - 1)).
  { replace bits with (Z.succ (bits - 1)) at 1 by lia. apply Z.pow_succ_r. lia. }
  destruct (Z.ltb_spec u (2 ^ (bits - 1))); lia.
Qed.
Lemma to_unsigned_signed bits u :
  0 < bits -> 0 <= u < 2 ^ bits -> to_unsigned bits (to_signed bits u) = u.
Proof.
  intros Hb Hu. unfold to_unsigned, to_signed.
  destruct (Z.ltb_spec u (2 ^ (bits - 1))).
  - apply Z.mod_small; lia.
  - symmetry. apply Z.mod_unique with (-1); lia.
Qed.
Lemma to_unsigned_range bits z : 0 <= bits -> 0 <= to_unsigned bits z < 2 ^ bits.
Proof. intros. unfold to_unsigned. apply Z.mod_pos_bound. apply Z.pow_pos_nonneg; lia. Qed.

(** ** Monadic iteration helpers *)
Fixpoint mfold {A B} (f : A -> B -> res A) (l : list B) (a : A) : res A :=
  match l with
  | [] => Ok a
  | x :: l' => let* a' := f a x in mfold f l' a'
  end.
Lemma mfold_app {A B} (f : A -> B -> res A) l1 l2 a :
  mfold f (l1 ++ l2) a = bind (mfold f l1 a) (mfold f l2).
Proof.
  revert a; induction l1 as [|x l1 IH]; intros a; cbn; auto.
  destruct (f a x); cbn; auto.
Qed.

(** Disjoint [lor] is addition. *)
Lemma land_disjoint a b k : 0 <= k -> 0 <= a < 2 ^ k -> Z.land a (Z.shiftl b k) = 0.
Proof.
  intros Hk Ha. apply Z.bits_inj'. intros n Hn. rewrite Z.land_spec, Z.bits_0.
  destruct (Z_lt_dec n k).
  - rewrite Z.shiftl_spec_low by lia. apply andb_false_r.
  - destruct (Z.eq_dec a 0) as [->|]; [now rewrite Z.bits_0|].
    rewrite (Z.bits_above_log2 a); auto; try lia.
    apply Z.log2_lt_pow2; try lia. apply Z.lt_le_trans with (2 ^ k); [lia|].
    apply Z.pow_le_mono_r; lia.
Qed.
Lemma lor_add_disjoint a b k : 0 <= k -> 0 <= a < 2 ^ k -> Z.lor a (Z.shiftl b k) = a + b * 2 ^ k.
Proof.
  intros Hk Ha. rewrite <- Z.shiftl_mul_pow2 by lia.
  pose proof (land_disjoint a b k Hk Ha) as E.
  rewrite Z.add_nocarry_lxor by exact E. symmetry. now apply Z.lxor_lor.
Qed.

(** Finite sweeps over all bytes, lifted to a universally quantified fact. *)
Lemma byte_sweep (P : Z -> bool) :
  forallb P (map Z.of_nat (seq 0 256)) = true -> forall b, is_byte b -> P b = true.
Proof.
  intros H b Hb. rewrite forallb_forall in H. apply H. unfold is_byte in Hb.
  apply in_map_iff. exists (Z.to_nat b). split; [lia|]. apply in_seq. lia.
Qed.
