(** * Opaque: opaque<T> (include/eosio/opaque.hpp)
    The state of an object is what its member [bin] (an input_stream) has left. A method which
    changes the state gives the new state; an exception leaves it somewhere in the middle and is
    not followed further. *)
From Verif Require Import Base Stream TypedBin.

(** opaque.hpp:52: default constructed; 53: from a vector, whose bytes it refers to *)
Definition opaque_empty : bytes := [].
(** include/eosio/opaque.hpp:53 *)
Definition opaque_of_vector (data : bytes) : bytes := data.
(** from_bin.hpp:144-159: from_bin(input_stream) *)
Definition stream_from_bin (s : bytes) : res (bytes * bytes) :=
  let* (v, s) := from_bin (fun _ => TBool) 0 TStream s in
  match v with VStr b => Ok (b, s) | _ => Undef "not a stream" end.
(** opaque.hpp:54: from a stream (by value: what follows is dropped) *)
Definition opaque_of_stream (s : bytes) : res bytes := let* (b, _) := stream_from_bin s in Ok b.
(** opaque.hpp:56-62 unpack *)
Definition unpack (env : nat -> ty) (fuel : nat) (t : ty) (o : bytes) : res (val * bytes) := from_bin env fuel t o.
(** opaque.hpp:64 *)
Definition empty (o : bytes) : bool := Z.of_nat (List.length o) =? 0.
(** opaque.hpp:66-69 from, 110-113 from_bin(opaque) *)
Definition opaque_from_bin (s : bytes) : res (bytes * bytes) := stream_from_bin s.
(** opaque.hpp:71-74 to_bin, 115-118 to_bin(opaque) *)
Definition opaque_to_bin (S : ostream) (o : bytes) (s : ost S) : res (ost S) := to_bin S (fun _ => TBool) 0 TStream (VStr o) s.
(** opaque.hpp:89-101, for opaque<std::vector<T>> *)
Definition unpack_size (o : bytes) : res (Z * bytes) := varuint32_from_bin o.
(** include/eosio/opaque.hpp:95-101 *)
Definition unpack_next (env : nat -> ty) (fuel : nat) (t : ty) (o : bytes) : res (val * bytes) := from_bin env fuel t o.
