(** * Specification for C56: what int64_t and uint32_t arithmetic gives. *)
From Verif Require Import Base Asset.

(** The values of the two integer types. *)
Definition is_int64 (z : Z) : Prop := - 2 ^ 63 <= z < 2 ^ 63.
Definition is_uint32 (z : Z) : Prop := 0 <= z < 2 ^ 32.

(** [r] is the int64_t for the mathematical result [z]: [z] itself if it is an int64_t;
    otherwise the C++ standard gives no answer, and a compiler told to wrap gives the int64_t
    that differs from [z] by a multiple of 2^64. *)
Inductive int64_result (z : Z) : overflow_mode -> res Z -> Prop :=
| Exact m : is_int64 z -> int64_result z m (Ok z)
| Overflows : ~ is_int64 z -> int64_result z Strict (Undef "signed overflow")
| Wraps w k : ~ is_int64 z -> is_int64 w -> w = z + k * 2 ^ 64 -> int64_result z Wrap (Ok w).

(** [r] is the uint32_t for [z]: it differs from [z] by a multiple of 2^32. *)
Definition uint32_result (z r : Z) : Prop := is_uint32 r /\ exists k, r = z + k * 2 ^ 32.

(** The six comparison operators [lt gt le ge eq ne] order the values by [key]. *)
Definition ordered_by {A} (dom : A -> Prop) (key : A -> Z) (lt gt le ge eq ne : A -> A -> bool) : Prop :=
  forall a b, dom a -> dom b ->
  (lt a b = true <-> key a < key b) /\ (gt a b = true <-> key a > key b) /\
  (le a b = true <-> key a <= key b) /\ (ge a b = true <-> key a >= key b) /\
  (eq a b = true <-> a = b) /\ (ne a b = true <-> a <> b) /\ (key a = key b -> a = b).
