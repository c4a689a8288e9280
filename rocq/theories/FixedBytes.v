(** * FixedBytes: fixed_bytes<Size, Word> (include/eosio/fixed_bytes.hpp) and the comparison
    operators of reflected structs (include/eosio/operators.hpp).
    A word of an unsigned type of [w] bytes is a [Z] in [0, 2^(8w)). An object is the list of
    its [num_words] words ([value], line 195). The std::array arguments are lists. *)
From Verif Require Import Base Stream TypedBin Hex Keys AbiScalar.

(** std::numeric_limits<U>::digits (fixed_bytes.hpp:45, 57) *)
Definition digits (u : nat) : Z := 8 * Z.of_nat u.
(** fixed_bytes.hpp:33-36 count_words *)
Definition count_words (size t : nat) : nat := ((size + t - 1) / t)%nat.

(** fixed_bytes.hpp:42-49 write_be, from loop index [words - n] on. [room] is [end - ptr]; the
    result is the elements written and the room left. *)
Fixpoint write_be_from (u words : nat) (t : Z) (n room : nat) : list Z * nat :=
  match n, room with
  | S n', S room' =>
      let i := (words - n)%nat in
      let x := Z.shiftr t (digits u * Z.of_nat (words - i - 1)) mod 2 ^ digits u in
      let (l, r) := write_be_from u words t n' room' in (x :: l, r)
  | _, _ => ([], room)
  end.
(** fixed_bytes.hpp:42-49 *)
Definition write_be (u t : nat) (room : nat) (x : Z) : list Z * nat :=
  let words := (t / u)%nat in write_be_from u words x words room.

(** fixed_bytes.hpp:52-61 read_be, from loop index [words - n] on, with the elements left. *)
Fixpoint read_be_from (u t words : nat) (n : nat) (l : list Z) (result : Z) : Z * list Z :=
  match n, l with
  | S n', x :: l' =>
      let i := (words - n)%nat in
      read_be_from u t words n' l' (Z.lor result (Z.shiftl x (digits u * Z.of_nat (words - i - 1)) mod 2 ^ digits t))
  | _, _ => (result, l)
  end.
(** fixed_bytes.hpp:52-61 *)
Definition read_be (u t : nat) (l : list Z) : Z * list Z :=
  let words := (t / u)%nat in read_be_from u t words words l 0.

(** fixed_bytes.hpp:66-77 convert_array, from words of [t] bytes to words of [u] bytes. *)
Fixpoint split_words (t u : nat) (l : list Z) (room : nat) : list Z :=
  match l with
  | [] => []
  | x :: l' => let (a, room) := write_be u t room x in a ++ split_words t u l' room
  end.
(** fixed_bytes.hpp:66-77: the case of larger result words *)
Fixpoint join_words (t u : nat) (n : nat) (l : list Z) : list Z :=
  match n with
  | O => []
  | S n' => let (x, l) := read_be t u l in x :: join_words t u n' l
  end.
(** fixed_bytes.hpp:66-77 *)
Definition convert_array (size t u : nat) (l : list Z) : list Z :=
  if Nat.ltb u t then split_words t u l (count_words size u) else join_words t u (count_words size u) l.
(** fixed_bytes.hpp:79-84 and 86-92: a shorter sequence is filled up with zeros. *)
Definition convert_range (size t u : nat) (l : list Z) : list Z :=
  let n := count_words size t in
  let count := Nat.min (List.length l) n in
  convert_array size t u (firstn count l ++ List.repeat 0 (n - count)).

(** The constructors, fixed_bytes.hpp:115-160, from at most [count_words<T>] words of [t] bytes:
    initializer lists (bytes), arrays, C arrays and make_from_word_sequence. The overload for
    std::array<Word, num_words()> copies. *)
Definition fixed_bytes (size word t : nat) (l : list Z) : list Z := convert_range size t word l.
(** fixed_bytes.hpp:166-169 *)
Definition extract_as_word_array (size word t : nat) (v : list Z) : list Z := convert_array size word t v.
(** fixed_bytes.hpp:175-177 *)
Definition extract_as_byte_array (size word : nat) (v : list Z) : list Z := extract_as_word_array size word 1 v.
(** fixed_bytes.hpp:102 *)
Definition num_words (size word : nat) : nat := count_words size word.
(** fixed_bytes.hpp:108 *)
Definition padded_bytes (size word : nat) : nat := (num_words size word * word - size)%nat.

(** fixed_bytes.hpp:213-218 from_bin, through std::array<uint8_t, Size>. *)
Definition fixed_from_bin (size word : nat) (s : bytes) : res (list Z * bytes) :=
  let* (v, s) := from_bin key_env 0 (byte_array size) s in
  match v with
  | VList l => Ok (fixed_bytes size word 1 (map byte_of l), s)
  | _ => Undef "not an array"
  end.
(** fixed_bytes.hpp:220-228 to_bin and to_key *)
Definition fixed_to_bin (S : ostream) (size word : nat) (v : list Z) (s : ost S) : res (ost S) :=
  to_bin S key_env 0 (byte_array size) (VList (map VInt (extract_as_byte_array size word v))) s.
(** fixed_bytes.hpp:230-238, on the contents of the JSON string *)
Definition fixed_read_json (size word : nat) (s : bytes) : res (list Z) :=
  let* d := from_json_hex s in
  let* _ := check (Nat.eqb (List.length d) size) E_hex_string_incorrect_length in
  Ok (fixed_bytes size word 1 d).
(** fixed_bytes.hpp:240-244 *)
Definition fixed_to_json (size word : nat) (v : list Z) : bytes := to_json_hex (extract_as_byte_array size word v).

(** std::array's operator== and operator<, which operators.hpp:21, 33-35 call *)
Fixpoint array_eq (a b : list Z) : bool :=
  match a, b with [], [] => true | x :: a', y :: b' => (x =? y) && array_eq a' b' | _, _ => false end.
(** std::array: lexicographic *)
Fixpoint array_lt (a b : list Z) : bool :=
  match a, b with
  | _, [] => false
  | [], _ :: _ => true
  | x :: a', y :: b' => if x <? y then true else if y <? x then false else array_lt a' b'
  end.

(** operators.hpp:18-69: the operators of a reflected struct. A struct is the list of its members,
    [m] gives the operators == and < of the type of each member. *)
Record member_ops (A : Type) := Ops { member_eq : A -> A -> bool; member_lt : A -> A -> bool }.
Arguments Ops {A}. Arguments member_eq {A}. Arguments member_lt {A}.
(** operators.hpp:31-39: eosio_compare of a member *)
Definition member_compare {A} (o : member_ops A) (x y : A) : Z := if member_lt o x y then -1 else if member_lt o y x then 1 else 0.
(** operators.hpp:18-23: the loop *)
Fixpoint struct_eq_from {A} (m : list (member_ops A)) (x y : list A) (result : bool) : bool :=
  match m, x, y with
  | o :: m', a :: x', b :: y' => struct_eq_from m' x' y' (result && member_eq o a b)
  | _, _, _ => result
  end.
(** operators.hpp:18-23 *)
Definition struct_eq {A} (m : list (member_ops A)) (x y : list A) : bool := struct_eq_from m x y true.
(** operators.hpp:24-27 *)
Definition struct_ne {A} (m : list (member_ops A)) (x y : list A) : bool := negb (struct_eq m x y).
(** operators.hpp:42-52: the loop *)
Fixpoint struct_compare_from {A} (m : list (member_ops A)) (x y : list A) (result : Z) : Z :=
  match m, x, y with
  | o :: m', a :: x', b :: y' => struct_compare_from m' x' y' (if result =? 0 then member_compare o a b else result)
  | _, _, _ => result
  end.
(** operators.hpp:42-52 *)
Definition struct_compare {A} (m : list (member_ops A)) (x y : list A) : Z := struct_compare_from m x y 0.
(** operators.hpp:54-57 *)
Definition struct_lt {A} (m : list (member_ops A)) (x y : list A) : bool := struct_compare m x y <? 0.
(** operators.hpp:58-61 *)
Definition struct_gt {A} (m : list (member_ops A)) (x y : list A) : bool := 0 <? struct_compare m x y.
(** operators.hpp:62-65 *)
Definition struct_le {A} (m : list (member_ops A)) (x y : list A) : bool := struct_compare m x y <=? 0.
(** operators.hpp:66-69 *)
Definition struct_ge {A} (m : list (member_ops A)) (x y : list A) : bool := 0 <=? struct_compare m x y.

(** fixed_bytes.hpp:191, 196-200: the one member of fixed_bytes is the array [value]. *)
Definition array_ops : member_ops (list Z) := Ops array_eq array_lt.
(** fixed_bytes.hpp:196-203, operators.hpp:18-23 *)
Definition fixed_eq (x y : list Z) : bool := struct_eq [array_ops] [x] [y].
(** fixed_bytes.hpp:196-203, operators.hpp:54-57 *)
Definition fixed_lt (x y : list Z) : bool := struct_lt [array_ops] [x] [y].
