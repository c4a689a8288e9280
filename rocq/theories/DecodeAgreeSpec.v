(** * DecodeAgreeSpec: vocabulary for C60 *)
From Verif Require Import Base Abi TypedJson.

(** The arithmetic C++ types among the built-in types: vectors of these are copied as one block
    (include/eosio/stream.hpp:53-63, from_bin.hpp:92-116). *)
Definition arithmetic (b : builtin) : bool :=
  match b with
  | B_int8 | B_uint8 | B_int16 | B_uint16 | B_int32 | B_uint32 | B_int64 | B_uint64 | B_int128 | B_uint128
  | B_float32 | B_float64 => true
  | _ => false
  end.
Definition is_arithmetic (t : jty) : bool := match t with JScalar b => arithmetic b | _ => false end.
(** A vector of an arithmetic type occurs in the type. *)
Fixpoint block_vectors (t : jty) : bool :=
  match t with
  | JVec t => is_arithmetic t || block_vectors t
  | JOpt t | JMaybe t => block_vectors t
  | JVariant ts => existsb block_vectors ts
  | JStruct _ fs => existsb (fun f => block_vectors (snd f)) fs
  | JPair a b => block_vectors a || block_vectors b
  | _ => false
  end.
