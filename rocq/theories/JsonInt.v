(** * Integers as JSON text: include/eosio/from_json.hpp:385-414, include/eosio/to_json.hpp:90-109,
    include/eosio/abieos_numeric.hpp:41-90, src/abieos.hpp:400-447 *)
From Verif Require Import Base Decimal.

(** Integer type of [n] bytes (1, 2, 4, 8, 16), signed or not. *)
Definition tbits (n : nat) : Z := 8 * Z.of_nat n.
(** include/eosio/from_json.hpp:397, std::numeric_limits<T>::min() *)
Definition tmin (sg : bool) (n : nat) : Z := if sg then - 2 ^ (tbits n - 1) else 0.
(** include/eosio/from_json.hpp:400, std::numeric_limits<T>::max() *)
Definition tmax (sg : bool) (n : nat) : Z := if sg then 2 ^ (tbits n - 1) - 1 else 2 ^ tbits n - 1.
(** Arithmetic of C++: operands narrower than int are promoted to int; signed overflow is
    undefined, unsigned arithmetic wraps. *)
Definition arith (sg : bool) (n : nat) (z : Z) : res Z :=
  if Nat.ltb n 4 then (if fits_s 32 z then Ok z else Undef "signed overflow")
  else if sg then (if fits_s (tbits n) z then Ok z else Undef "signed overflow")
  else Ok (z mod 2 ^ tbits n).
(** Conversion to the type (assignment): modulo 2^bits. *)
Definition convert_to (sg : bool) (n : nat) (z : Z) : Z :=
  if sg then wrap_s (tbits n) z else z mod 2 ^ tbits n.

(** include/eosio/from_json.hpp:402-412: the loop; [result] so far, rest of the text, found. *)
Fixpoint int_loop (sg : bool) (n : nat) (sign limit result : Z) (found : bool) (s : bytes) : res (Z * bool * bytes) :=
  match s with
  | c :: s' =>
      if (48 <=? c) && (c <=? 57) then
        let digit := convert_to sg n (c - 48) in
        let* _ := (if sg then
                     let* ns := arith sg n (- sign) in
                     let* a := arith sg n (ns * limit) in
                     let* b := arith sg n (a + digit) in
                     let* r := arith sg n (ns * result) in
                     check (negb (r <? Z.quot b 10)) E_number_out_of_range
                   else Ok tt) in
        let* _ := (if sg then Ok tt
                   else
                     let* a := arith sg n (limit - digit) in
                     check (negb (Z.quot a 10 <? result)) E_number_out_of_range) in
        let* a := arith sg n (result * 10) in
        let* b := arith sg n (sign * digit) in
        let* r := arith sg n (a + b) in
        int_loop sg n sign limit (convert_to sg n r) true s'
      else Ok (result, found, s)
  | [] => Ok (result, found, [])
  end.
(** include/eosio/from_json.hpp:385-414 [from_json_int] on the contents of a JSON string or
    number. [sign] and [limit] have type T; for unsigned T they are never -1. *)
Definition from_json_int (sg : bool) (n : nat) (r : bytes) : res Z :=
  let '(sign, limit, s) :=
    match r with
    | 45 :: s => if sg then (-1, tmin sg n, s) else (1, tmax sg n, r)
    | _ => (1, tmax sg n, r)
    end in
  let* (result, found, rest) := int_loop sg n sign limit 0 false s in
  let* _ := check (match rest with [] => found | _ => false end) E_expected_int in
  Ok result.

(** std::numeric_limits<T>::digits10 *)
Definition digits10 (sg : bool) (n : nat) : nat :=
  match n with
  | 1 => 2 | 2 => 4 | 4 => 9 | 8 => if sg then 18 else 19 | _ => 38
  end%nat.
(** include/eosio/to_json.hpp:99-102: [do ... while (uvalue)]; digits come out least significant first. *)
Fixpoint udigits (fuel : nat) (u : Z) : bytes :=
  match fuel with
  | O => []
  | S f => (48 + u mod 10) :: (if u / 10 =? 0 then [] else udigits f (u / 10))
  end.
(** include/eosio/to_json.hpp:90-109 [int_to_json]; writing beyond the buffer is undefined. *)
Definition int_to_json (sg : bool) (n : nat) (value : Z) : res bytes :=
  let uvalue := value mod 2 ^ tbits n in
  let neg := value <? 0 in
  let uvalue := if neg then (- uvalue) mod 2 ^ tbits n else uvalue in
  let q := if Nat.ltb 4 n then [34] else [] in
  let b := q ++ udigits (S (Z.to_nat (Z.log2 uvalue))) uvalue ++ (if neg then [45] else []) ++ q in
  if Nat.leb (List.length b) (digits10 sg n + 4) then Ok (rev b)
  else Undef "small_buffer overflow".

(** ** Byte array decimal conversion *)
(** abieos_numeric.hpp:41-44 *)
Definition is_negative (a : bytes) : bool := negb (Z.land (last a 0) 128 =? 0).
(** abieos_numeric.hpp:46-54 *)
Fixpoint negate_loop (carry : Z) (a : bytes) : bytes :=
  match a with
  | [] => []
  | b :: a' => let x := (255 - b) + carry in (x mod 256) :: negate_loop (Z.shiftr x 8) a'
  end.
(** include/eosio/abieos_numeric.hpp:46-54 [negate] *)
Definition negate (a : bytes) : bytes := negate_loop 1 a.
(** abieos_numeric.hpp:64-69: multiply by ten and add; the final carry (a uint8_t) *)
Fixpoint mul10_add (carry : Z) (a : bytes) : bytes * Z :=
  match a with
  | [] => ([], carry)
  | b :: a' => let x := b * 10 + carry in
               let '(r, c) := mul10_add (Z.shiftr x 8) a' in ((x mod 256) :: r, c)
  end.
(** abieos_numeric.hpp:56-73 [decimal_to_binary] *)
Fixpoint decimal_loop (a s : bytes) : res bytes :=
  match s with
  | [] => Ok a
  | c :: s' =>
      let* _ := check (negb ((c <? 48) || (57 <? c))) E_expected_int in
      let '(a', carry) := mul10_add (c - 48) a in
      let* _ := check (carry =? 0) E_number_out_of_range in
      decimal_loop a' s'
  end.
(** include/eosio/abieos_numeric.hpp:56-73 *)
Definition decimal_to_binary (size : nat) (s : bytes) : res bytes := decimal_loop (repeat 0 size) s.
(** abieos_numeric.hpp:84-87: [while (carry)] *)
Fixpoint push10 (fuel : nat) (carry : Z) : bytes :=
  match fuel with
  | O => []
  | S f => if carry =? 0 then [] else (48 + Z.rem carry 10) :: push10 f (Z.quot carry 10)
  end.
(** abieos_numeric.hpp:78-87; an int has at most ten decimal digits *)
Fixpoint mul256_dec (carry : Z) (r : bytes) : bytes :=
  match r with
  | [] => push10 10 carry
  | c :: r' => let x := Z.shiftl (c - 48) 8 + carry in (48 + Z.rem x 10) :: mul256_dec (Z.quot x 10) r'
  end.
(** abieos_numeric.hpp:75-91 [binary_to_decimal] *)
Definition binary_to_decimal (bin : bytes) : bytes := rev (fold_left (fun r b => mul256_dec b r) (rev bin) [48]).
(** src/abieos.hpp:412-415 [from_json(uint128)] *)
Definition uint128_from_json (s : bytes) : res bytes := decimal_to_binary 16 s.
(** src/abieos.hpp:417-428 [from_json(int128)] *)
Definition int128_from_json (s : bytes) : res bytes :=
  match s with
  | 45 :: s' =>
      let* d := decimal_to_binary 16 s' in
      let d := negate d in
      let* _ := check (is_negative d) E_number_out_of_range in Ok d
  | _ =>
      let* d := decimal_to_binary 16 s in
      let* _ := check (negb (is_negative d)) E_number_out_of_range in Ok d
  end.
(** src/abieos.hpp:430-434 *)
Definition uint128_to_json (d : bytes) : bytes := str """" ++ binary_to_decimal d ++ str """".
(** src/abieos.hpp:436-447 *)
Definition int128_to_json (d : bytes) : bytes :=
  if is_negative d then str """-" ++ binary_to_decimal (negate d) ++ str """"
  else str """" ++ binary_to_decimal d ++ str """".

(** ** Specification *)
(** The integer a text denotes: optional minus (signed types only), then at least one decimal digit. *)
Definition int_text (sg : bool) (s : bytes) : option Z :=
  match s with
  | 45 :: s' => if sg && negb (Nat.eqb (List.length s') 0) && forallb is_digit s' then Some (- dval s') else None
  | _ => if negb (Nat.eqb (List.length s) 0) && forallb is_digit s then Some (dval s) else None
  end.
(** Canonical decimal notation. *)
Definition int_notation (v : Z) : bytes := if v <? 0 then str "-" ++ dec (- v) else dec v.
