(** * Varint: the wrappers unsigned_int (varuint32) and signed_int (varint32)
    (include/eosio/varint.hpp). The state is the member [value]. Serialisation is in Stream.v,
    JSON in AbiScalar.v (the int32 and uint32 text forms), keys in ToKey.v. *)
From Verif Require Import Base Stream.

(** An integer type of C++: signed or not, [bits] wide. Conversions between integer types are
    modulo 2^bits (guaranteed for unsigned targets, implementation defined and so in gcc and
    clang for signed ones). *)
Record int_type := IntType { is_signed : bool; bits : Z }.
(** The conversion to it. *)
Definition convert_int (t : int_type) (x : Z) : Z := if is_signed t then wrap_s (bits t) x else x mod 2 ^ bits t.
(** int32_t *)
Definition int32 := IntType true 32.
(** uint32_t *)
Definition uint32 := IntType false 32.

(** varint.hpp:33, 43: constructors; 67-70: assignment of a uint32_t; a T is converted first *)
Definition unsigned_int_of (x : Z) : Z := convert_int uint32 x.
(** varint.hpp:54-57: conversion to T *)
Definition unsigned_int_to (t : int_type) (value : Z) : Z := convert_int t value.
(** varint.hpp:89-199: the operators; the three overloads of each compare the same two values *)
Definition u_eq (a b : Z) : bool := a =? b.
(** varint.hpp:119-139 *)
Definition u_ne (a b : Z) : bool := negb (a =? b).
(** varint.hpp:149-169 *)
Definition u_lt (a b : Z) : bool := a <? b.
(** varint.hpp:179-199 *)
Definition u_ge (a b : Z) : bool := b <=? a.
(** varint.hpp:207-210: convert to uint32_t *)
Definition u_convert (value : Z) : Z := value.
(** varint.hpp:212-220 *)
Definition unsigned_int_from_bin (s : bytes) : res (Z * bytes) := varuint32_from_bin s.
(** varint.hpp:217-220 *)
Definition unsigned_int_to_bin (S : ostream) (value : Z) (s : ost S) : res (ost S) := varuint32_to_bin S value s.

(** varint.hpp:251, 269-273: construction and assignment; 260: conversion to int32_t *)
Definition signed_int_of (x : Z) : Z := convert_int int32 x.
(** varint.hpp:260 *)
Definition signed_int_to (value : Z) : Z := value.
(** varint.hpp:280-290: x++ gives the old value, ++x the new one; [value++] overflows *)
Definition signed_int_incr (value : Z) : res Z := if fits_s 32 (value + 1) then Ok (value + 1) else Undef "signed overflow".
(** varint.hpp:280 *)
Definition signed_int_post_incr (value : Z) : res (Z * Z) := let* v := signed_int_incr value in Ok (signed_int_of value, v).
(** varint.hpp:309-419 *)
Definition s_eq (a b : Z) : bool := a =? b.
(** varint.hpp:339-359 *)
Definition s_ne (a b : Z) : bool := negb (a =? b).
(** varint.hpp:369-389 *)
Definition s_lt (a b : Z) : bool := a <? b.
(** varint.hpp:399-419 *)
Definition s_ge (a b : Z) : bool := b <=? a.
(** varint.hpp:427-435 *)
Definition signed_int_from_bin (s : bytes) : res (Z * bytes) := varint32_from_bin s.
(** varint.hpp:432-435 *)
Definition signed_int_to_bin (S : ostream) (value : Z) (s : ost S) : res (ost S) :=
  varuint32_to_bin S (zigzag value) s.
