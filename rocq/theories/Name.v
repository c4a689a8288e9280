(** * Name: the model of names (text, parts, hash) *)
From Verif Require Import Base.

(** include/eosio/chain_conversions.hpp:95-101 [char_to_name_digit] *)
Definition char_to_name_digit (c : Z) : Z :=
  if (97 <=? c) && (c <=? 122) then c - 97 + 6
  else if (49 <=? c) && (c <=? 53) then c - 49 + 1
  else 0.

(** include/eosio/chain_conversions.hpp:103-110 [string_to_name(const char*, int)];
    :118-120 forward to it (their [size_t] to [int] narrowing, which matters from
    2^31 characters on, is not modelled). [i] is the loop counter. *)
Fixpoint string_to_name_loop (i : nat) (s : bytes) (name : Z) : Z :=
  match s with
  | [] => name
  | c :: s' =>
      if (i <? 12)%nat
      then string_to_name_loop (S i) s'
             (Z.lor name (Z.shiftl (Z.land (char_to_name_digit c) 31) (64 - 5 * (Z.of_nat i + 1)) mod 2 ^ 64))
      else Z.lor name (Z.land (char_to_name_digit c) 15)
  end.
(** include/eosio/chain_conversions.hpp:103-110 *)
Definition string_to_name (s : bytes) : Z := string_to_name_loop 0 s 0.

(** include/eosio/chain_conversions.hpp:112-116: the NUL terminated overload. *)
Fixpoint upto_nul (s : bytes) : bytes :=
  match s with [] => [] | c :: s' => if c =? 0 then [] else c :: upto_nul s' end.
(** include/eosio/chain_conversions.hpp:112-116 *)
Definition string_to_name_cstr (s : bytes) : Z := string_to_name (upto_nul s).

(** include/eosio/chain_conversions.hpp:139-155 [char_to_name_digit_strict(char, uint64_t&)]
    (and :122-137, the compile time variant: [None] is the static_assert). *)
Definition char_to_name_digit_strict (c : Z) : option Z :=
  if (97 <=? c) && (c <=? 122) then Some (c - 97 + 6)
  else if (49 <=? c) && (c <=? 53) then Some (c - 49 + 1)
  else if c =? 46 then Some 0
  else None.

(** include/eosio/chain_conversions.hpp:190-208 [try_string_to_name_strict]: the
    first loop, then the 13th character, then the length check. *)
Fixpoint strict_loop (i : nat) (s : bytes) (name : Z) : res Z :=
  match s with
  | [] => Ok name
  | c :: s' =>
      if (i <? 12)%nat then
        match char_to_name_digit_strict c with
        | None => Err E_invalid_name_char
        | Some x => strict_loop (S i) s' (Z.lor name (Z.shiftl (Z.land x 31) (64 - 5 * (Z.of_nat i + 1)) mod 2 ^ 64))
        end
      else
        match char_to_name_digit_strict c with
        | None => Err E_invalid_name_char
        | Some x =>
            if negb (x =? Z.land x 15) then Err E_invalid_name_char13
            else match s' with
                 | [] => Ok (Z.lor name x)
                 | _ :: _ => Err E_name_too_long
                 end
        end
  end.
(** include/eosio/chain_conversions.hpp:190-208 *)
Definition try_string_to_name_strict (s : bytes) : res Z := strict_loop 0 s 0.

(** include/eosio/chain_conversions.hpp:210-214 [string_to_name_strict]: throws the
    error; also [name(std::string_view)], include/eosio/name.hpp:19. *)
Definition string_to_name_strict (s : bytes) : res Z := try_string_to_name_strict s.

(** include/eosio/chain_conversions.hpp:157-176: the compile time parser behind the
    [_n] literal (include/eosio/name.hpp:167-169). [None] = does not compile. *)
Fixpoint literal_impl (n : nat) (so_far : Z) (c : Z) (rest : bytes) : option Z :=
  match char_to_name_digit_strict c with
  | None => None
  | Some x =>
      if (n =? 12)%nat && negb (Z.land x 15 =? x) then None
      else match rest with
           | c' :: rest' =>
               literal_impl (S n) (Z.lor so_far (Z.shiftl (Z.land x 31) (64 - 5 * (Z.of_nat n + 1)) mod 2 ^ 64)) c' rest'
           | [] =>
               Some (Z.lor so_far (Z.shiftl (Z.land x 31)
                       (64 + (if (n =? 12)%nat then 1 else 0) - 5 * (Z.of_nat n + 1)) mod 2 ^ 64))
           end
  end.
(** include/eosio/chain_conversions.hpp:172-176 *)
Definition name_literal (s : bytes) : option Z :=
  if (List.length s <=? 13)%nat
  then match s with [] => Some 0 | c :: rest => literal_impl 0 0 c rest end
  else None.

(** include/eosio/chain_conversions.hpp:217 [charmap] *)
Definition name_charmap : bytes := str ".12345abcdefghijklmnopqrstuvwxyz".
(** include/eosio/chain_conversions.hpp:222 [charmap[...]] *)
Definition name_char (i : Z) : Z := nth (Z.to_nat i) name_charmap 0.

(** include/eosio/chain_conversions.hpp:220-225: the loop for i = 1..12 (after the first
    pass). Characters are stored at [12 - i], that is, in front of the previous ones. *)
Fixpoint name_chars (n : nat) (tmp : Z) (acc : bytes) : bytes :=
  match n with
  | O => acc
  | S n' => name_chars n' (Z.shiftr tmp 5) (name_char (Z.land tmp 31) :: acc)
  end.

(** std::string::find_last_not_of(c), include/eosio/chain_conversions.hpp:227: index of the last character other than [c]. *)
Fixpoint find_last_not_of (c : Z) (s : bytes) : option nat :=
  match s with
  | [] => None
  | x :: s' =>
      match find_last_not_of c s' with
      | Some i => Some (S i)
      | None => if x =? c then None else Some O
      end
  end.

(** include/eosio/chain_conversions.hpp:216-229 [name_to_string] ([last + 1] is 0 when
    find_last_not_of returns npos). *)
Definition name_to_string (name : Z) : bytes :=
  let s := name_chars 12 (Z.shiftr name 4) [name_char (Z.land name 15)] in
  firstn (match find_last_not_of 46 s with Some last => S last | None => O end) s.

(** include/eosio/name.hpp:55-70 [name::length] *)
Fixpoint name_length_loop (n : nat) (i : Z) (v l : Z) : Z :=
  match n with
  | O => l
  | S n' => name_length_loop n' (i + 1) (Z.shiftl v 5 mod 2 ^ 64)
              (if 0 <? Z.land v 0xF800000000000000 then i else l)
  end.
(** include/eosio/name.hpp:55-70 *)
Definition name_length (value : Z) : Z :=
  if value =? 0 then 0 else name_length_loop 13 0 value 0 + 1.

(** include/eosio/name.hpp:75-107 [name::suffix]: the loop, then the 13th character. *)
Fixpoint name_suffix_loop (n : nat) (value rem : Z) (tmp last : Z) : Z * Z :=
  match n with
  | O => (tmp, last)
  | S n' =>
      let c := Z.land (Z.shiftr value rem) 31 in
      if c =? 0 then name_suffix_loop n' value (rem - 5) rem last
      else name_suffix_loop n' value (rem - 5) tmp tmp
  end.
(** include/eosio/name.hpp:75-107 *)
Definition name_suffix (value : Z) : Z :=
  let '(tmp, last) := name_suffix_loop 12 value 59 0 0 in
  let thirteenth := Z.land value 15 in
  let last := if thirteenth =? 0 then last else tmp in
  if last =? 0 then value
  else
    let mask := Z.shiftl 1 last - 16 in
    let shift := 64 - last in
    (Z.shiftl (Z.land value mask) shift mod 2 ^ 64 + Z.shiftl thirteenth (shift - 1) mod 2 ^ 64) mod 2 ^ 64.

(** include/eosio/name.hpp:112-139 [name::prefix]: offset 0 with mask 0xF, then offsets
    4, 9, ..., 59 with mask 0x1F. *)
Fixpoint name_prefix_loop (n : nat) (value offset mask : Z) (seen : bool) : Z :=
  match n with
  | O => value
  | S n' =>
      let c := Z.land (Z.shiftr value offset) mask in
      let next := if offset =? 0 then offset + 4 else offset + 5 in
      if c =? 0 then
        if seen then Z.shiftl (Z.shiftr value offset) offset
        else name_prefix_loop n' value next 31 seen
      else name_prefix_loop n' value next 31 true
  end.
(** include/eosio/name.hpp:112-139 *)
Definition name_prefix (value : Z) : Z := name_prefix_loop 13 value 0 15 false.

(** ** The hash used for texts which are not names
    uint64_t arithmetic, include/eosio/murmur.hpp:30-54 *)
Definition u64 (z : Z) : Z := z mod 2 ^ 64.

(** include/eosio/murmur.hpp:4-12 [unaligned_load]: [p[i]] is a signed char which is
    converted to uint64_t (sign extension); the shift also happens after the last byte. *)
Fixpoint unaligned_load (p : bytes) (n : nat) (r : Z) : Z :=
  match n with
  | O => r
  | S n' =>
      match p with
      | [] => r
      | c :: p' => unaligned_load p' n' (u64 (Z.shiftl (Z.lor r (u64 (to_signed 8 c))) 8))
      end
  end.

(** include/eosio/murmur.hpp:14-23 [load_bytes]: bytes n-1 down to 0. *)
Definition load_bytes (p : bytes) : Z :=
  fold_left (fun r b => u64 (u64 (Z.shiftl r 8) + b)) (rev p) 0.

(** include/eosio/murmur.hpp:25-26 *)
Definition shift_mix (v : Z) : Z := Z.lxor v (Z.shiftr v 47).

(** include/eosio/murmur.hpp:32 *)
Definition murmur_mul : Z := 0xc6a4a7935bd1e995.

(** include/eosio/murmur.hpp:41-45: the loop over full 8-byte blocks ([n] blocks). *)
Fixpoint murmur_blocks (n : nat) (p : bytes) (hash : Z) : Z * bytes :=
  match n with
  | O => (hash, p)
  | S n' =>
      let data := u64 (shift_mix (u64 (unaligned_load p 8 0 * murmur_mul)) * murmur_mul) in
      murmur_blocks n' (skipn 8 p) (u64 (Z.lxor hash data * murmur_mul))
  end.

(** include/eosio/murmur.hpp:30-54 [murmur64] with the default seed. *)
Definition murmur64 (s : bytes) : Z :=
  let len := Z.of_nat (List.length s) in
  let hash := Z.lxor 0xbadd00d00 (u64 (len * murmur_mul)) in
  let '(hash, rest) := murmur_blocks (Z.to_nat (len / 8)) s hash in
  let hash := if Z.land len 7 =? 0 then hash else u64 (Z.lxor hash (load_bytes rest) * murmur_mul) in
  shift_mix (u64 (shift_mix hash * murmur_mul)).

(** include/eosio/name.hpp:144-148 [hash_name] *)
Definition hash_name (s : bytes) : Z :=
  match try_string_to_name_strict s with
  | Ok v => v
  | _ => murmur64 s
  end.

(** include/eosio/name.hpp:153-157 [from_json(name&)] on the contents of the JSON string,
    and :159-162 [to_json(name)], before JSON string quoting. *)
Definition name_from_json_string (s : bytes) : Z := hash_name s.
(** include/eosio/name.hpp:159-162 *)
Definition name_to_json_string (v : Z) : bytes := name_to_string v.
