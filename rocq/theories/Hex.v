(** * Hexadecimal text: src/abieos.hpp:66-110, include/eosio/from_json.hpp:344-363 and
    :588-596, include/eosio/to_json.hpp:238-247. *)
From Verif Require Import Base.

(** src/abieos.hpp:69-74 [nibble] (and include/eosio/to_json.hpp:15 [hex_digits]) *)
Definition nibble (i : Z) : Z := if i <=? 9 then 48 + i else 65 + i - 10.
(** src/abieos.hpp:67-80 [hex], include/eosio/to_json.hpp:241-245 *)
Fixpoint hex (b : bytes) : bytes :=
  match b with
  | [] => []
  | x :: b' => nibble (Z.shiftr x 4) :: nibble (Z.land x 15) :: hex b'
  end.

(** [get_digit] (src/abieos.hpp:93-103, include/eosio/from_json.hpp:345-355). *)
Definition get_digit (c : Z) : option Z :=
  if (48 <=? c) && (c <=? 57) then Some (c - 48)
  else if (97 <=? c) && (c <=? 102) then Some (c - 97 + 10)
  else if (65 <=? c) && (c <=? 70) then Some (c - 65 + 10)
  else None.
(** src/abieos.hpp:91-110 on a NUL terminated string and include/eosio/from_json.hpp:343-363 on
    an even number of characters. The second digit of an odd length text is the
    terminator, which is not a digit. *)
Fixpoint unhex (s : bytes) : option bytes :=
  match s with
  | [] => Some []
  | h :: s' =>
      match get_digit h with
      | None => None
      | Some vh =>
          match s' with
          | [] => None
          | l :: s'' =>
              match get_digit l with
              | None => None
              | Some vl => match unhex s'' with
                           | None => None
                           | Some r => Some (Z.lor (Z.shiftl vh 4) vl :: r)
                           end
              end
          end
      end
  end.
(** include/eosio/from_json.hpp:588-596 [from_json_hex] on the string contents. *)
Definition from_json_hex (s : bytes) : res bytes :=
  let* _ := check (Nat.even (List.length s)) E_expected_hex_string in
  match unhex s with Some r => Ok r | None => Err E_expected_hex_string end.
(** include/eosio/to_json.hpp:238-247 [to_json_hex] *)
Definition to_json_hex (b : bytes) : bytes := str """" ++ hex b ++ str """".

(** ** Specification *)
Definition is_hex_digit (c : Z) : bool :=
  ((48 <=? c) && (c <=? 57)) || ((65 <=? c) && (c <=? 70)) || ((97 <=? c) && (c <=? 102)).
(** Value of a text of hexadecimal digits, as a number. *)
Definition digit_value (c : Z) : Z :=
  if c <=? 57 then c - 48 else if c <=? 70 then c - 55 else c - 87.
Fixpoint pairs_value (s : bytes) : bytes :=
  match s with h :: l :: s' => (16 * digit_value h + digit_value l) :: pairs_value s' | _ => [] end.
Definition upper_hex_digit (c : Z) : bool := ((48 <=? c) && (c <=? 57)) || ((65 <=? c) && (c <=? 70)).
