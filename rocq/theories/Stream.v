(** * Stream: output streams, the input stream, varints *)
From Verif Require Import Base.

(** ** Output streams
    C++ writers are templates over a stream type [S] with [write(char)] and
    [write(ptr, size)]. [owrite s buf] models both (a one byte buffer for the
    former): include/eosio/stream.hpp:73-138. *)
Record ostream : Type := { ost : Type; owrite : ost -> bytes -> res ost }.

(** include/eosio/stream.hpp:73-88, [vector_stream]: appends, never fails. *)
Definition vector_stream : ostream :=
  {| ost := bytes; owrite := fun d buf => Ok (d ++ buf) |}.

(** include/eosio/stream.hpp:118-138, [size_stream]. [size_t] wrap around is
    not modelled: it would need 2^64 bytes of output. *)
Definition size_stream : ostream :=
  {| ost := nat; owrite := fun n buf => Ok (n + List.length buf)%nat |}.

(** include/eosio/stream.hpp:90-116, [fixed_buf_stream]: the bytes written so
    far and the number of bytes of room left ([end - pos]). A write which does
    not fit throws "Stream overrun" and writes nothing. *)
Definition fixed_buf_stream : ostream :=
  {| ost := bytes * nat;
     owrite := fun '(d, room) buf =>
       let* _ := check (Nat.leb (List.length buf) room) E_overrun in
       Ok (d ++ buf, room - List.length buf)%nat |}.

(** ** Input stream
    include/eosio/stream.hpp:187-229: the state is the unread part [pos,end). *)
Definition istream := bytes.

(** include/eosio/stream.hpp:202-204 [check_available(size_t)] *)
Definition check_available (s : istream) (n : Z) : res unit :=
  check (n <=? Z.of_nat (List.length s)) E_overrun.

(** include/eosio/stream.hpp:208-212 [read] (and 219-228 [skip],
    [read_reuse_storage]): take [n] bytes from the front. *)
Definition sread (s : istream) (n : Z) : res (bytes * istream) :=
  let* _ := check (n <=? Z.of_nat (List.length s)) E_overrun in
  Ok (firstn (Z.to_nat n) s, skipn (Z.to_nat n) s).

(** include/eosio/from_bin.hpp:27-28, 40-41: from_bin(b, stream) with a uint8_t b. *)
Definition read_u8 (s : istream) : res (Z * istream) :=
  match s with
  | [] => Err E_overrun
  | b :: s' => Ok (b, s')
  end.

(** ** Varints *)
(** include/eosio/to_bin.hpp:36-45 [varuint32_to_bin]. The argument is a
    uint64_t; the do-while loop runs at most 10 times on one, the fuel is
    11 and [Undef "fuel"] is proved unreachable. *)
Fixpoint varuint32_to_bin_loop (fuel : nat) (S : ostream) (val : Z) (s : ost S) : res (ost S) :=
  match fuel with
  | O => Undef "fuel"
  | Datatypes.S fuel' =>
      let b := Z.land val 127 in
      let val' := Z.shiftr val 7 in
      let b' := Z.lor b (Z.shiftl (if 0 <? val' then 1 else 0) 7) in
      let* s' := owrite S s [b'] in
      if val' =? 0 then Ok s' else varuint32_to_bin_loop fuel' S val' s'
  end.
(** include/eosio/to_bin.hpp:36-45 *)
Definition varuint32_to_bin (S : ostream) (val : Z) (s : ost S) : res (ost S) :=
  let* _ := check (Z.shiftr val 32 =? 0) E_varuint_too_big in
  varuint32_to_bin_loop 11 S val s.

(** include/eosio/from_bin.hpp:21-32 [varuint32_from_bin] (bits=32, limit=35)
    and :34-45 [varuint64_from_bin] (bits=64, limit=70). *)
Fixpoint varuint_from_bin_loop (fuel : nat) (bits limit : Z) (dest shift : Z) (s : istream)
  : res (Z * istream) :=
  match fuel with
  | O => Undef "fuel"
  | Datatypes.S fuel' =>
      let* _ := check (shift <? limit) E_invalid_varuint_encoding in
      let* (b, s') := read_u8 s in
      let dest' := Z.lor dest (Z.shiftl (Z.land b 127) shift mod 2 ^ bits) in
      if negb (Z.land b 128 =? 0)
      then varuint_from_bin_loop fuel' bits limit dest' (shift + 7) s'
      else Ok (dest', s')
  end.
(** include/eosio/from_bin.hpp:21-32 *)
Definition varuint32_from_bin (s : istream) : res (Z * istream) :=
  varuint_from_bin_loop 12 32 35 0 0 s.
(** include/eosio/from_bin.hpp:34-45 *)
Definition varuint64_from_bin (s : istream) : res (Z * istream) :=
  varuint_from_bin_loop 12 64 70 0 0 s.

(** include/eosio/from_bin.hpp:47-55 [varint32_from_bin]: [result] is int32_t,
    the expressions are uint32_t. *)
Definition varint32_from_bin (s : istream) : res (Z * istream) :=
  let* (v, s') := varuint32_from_bin s in
  if negb (Z.land v 1 =? 0)
  then Ok (to_signed 32 (Z.lor (Z.shiftr (2 ^ 32 - 1 - v) 1) (2 ^ 31)), s')
  else Ok (to_signed 32 (Z.shiftr v 1), s').

(** include/eosio/varint.hpp:432-435 [to_bin(const varint32&)]:
    (uint32(v) << 1) ^ uint32(v >> 31), v an int32_t (arithmetic shift). *)
Definition zigzag (v : Z) : Z :=
  Z.lxor (Z.shiftl (to_unsigned 32 v) 1 mod 2 ^ 32) (to_unsigned 32 (Z.shiftr v 31)).
(** include/eosio/varint.hpp:432-435 *)
Definition varint32_to_bin (S : ostream) (v : Z) (s : ost S) : res (ost S) :=
  varuint32_to_bin S (zigzag v) s.
