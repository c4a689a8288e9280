(** * Base58: src/crypto.cpp:24-84 *)
From Verif Require Import Base.

(** src/crypto.cpp:24 [base58_chars]: the 58 characters; the array also holds the terminating NUL. *)
Definition base58_chars : bytes := str "123456789ABCDEFGHJKLMNPQRSTUVWXYZabcdefghijkmnopqrstuvwxyz".
(** src/crypto.cpp:24, the array as indexed by 30-31. *)
Definition base58_array : bytes := base58_chars ++ [0].
(** src/crypto.cpp:26-35 [create_base58_map]: -1 everywhere, then [map[base58_chars[i]] = i] for
    i below sizeof(base58_chars) = 59, i.e. including the terminating NUL. *)
Definition base58_map (c : Z) : Z :=
  fold_left (fun (m : Z) (p : Z * Z) => if fst p =? c then snd p else m)
            (combine base58_array (map Z.of_nat (seq 0 (List.length base58_array)))) (-1).

(** src/crypto.cpp:44-50: the inner loop over the bytes so far (least significant first)
    followed by [if (carry) push_back]. Bytes are 0..255. *)
Fixpoint mul58_add (carry : Z) (r : bytes) : bytes :=
  match r with
  | [] => if carry =? 0 then [] else [carry mod 256]
  | b :: r' => let x := b * 58 + carry in (x mod 256) :: mul58_add (Z.shiftr x 8) r'
  end.
(** src/crypto.cpp:40-52: the loop over the text *)
Fixpoint base58_digits_in (s : bytes) (r : bytes) : res bytes :=
  match s with
  | [] => Ok r
  | c :: s' =>
      let carry := base58_map c in
      let* _ := check (0 <=? carry) E_expected_key in
      base58_digits_in s' (mul58_add carry r)
  end.
(** src/crypto.cpp:53-57 and :77-81: one element per leading [x]. *)
Fixpoint leading (x : Z) (s : bytes) : nat :=
  match s with c :: s' => if c =? x then S (leading x s') else O | [] => O end.
(** src/crypto.cpp:37-59 [base58_to_binary] with the container initially at [offset]. *)
Definition base58_to_binary (s : bytes) : res bytes :=
  let* r := base58_digits_in s [] in
  Ok (rev (r ++ repeat 0 (leading 49 s))).

(** src/crypto.cpp:72-75: [while (carry)]; an int below 2^31 has at most six digits in base 58. *)
Fixpoint push_base58 (fuel : nat) (carry : Z) : bytes :=
  match fuel with
  | O => []
  | S fuel' => if carry =? 0 then []
               else nth (Z.to_nat (Z.rem carry 58)) base58_array 0 :: push_base58 fuel' (Z.quot carry 58)
  end.
(** src/crypto.cpp:66-75: the inner loops; [r] holds characters, least significant first. *)
Fixpoint mul256_add (carry : Z) (r : bytes) : bytes :=
  match r with
  | [] => push_base58 6 carry
  | c :: r' =>
      let x := Z.shiftl (base58_map c) 8 + carry in
      nth (Z.to_nat (Z.rem x 58)) base58_array 0 :: mul256_add (Z.quot x 58) r'
  end.
(** src/crypto.cpp:61-84 [binary_to_base58] *)
Definition binary_to_base58 (bin : bytes) : bytes :=
  let r := fold_left (fun r b => mul256_add b r) bin [] in
  rev (r ++ repeat 49 (leading 0 bin)).

(** src/crypto.cpp:205-215 [to_base58], [from_base58] *)
Definition to_base58 (d : bytes) : bytes := binary_to_base58 d.
(** src/crypto.cpp:210-214 *)
Definition from_base58 (s : bytes) : res bytes := base58_to_binary s.

(** ** Specification *)
(** Value of a most significant first digit string in base [b]. *)
Definition be_value (b : Z) (l : list Z) : Z := fold_left (fun a d => a * b + d) l 0.
(** Position in the alphabet. *)
Fixpoint index_of (c : Z) (l : list Z) : option Z :=
  match l with [] => None | x :: l' => if x =? c then Some 0 else match index_of c l' with Some i => Some (i + 1) | None => None end end.
(** Specification: is a base 58 digit. *)
Definition is_base58 (c : Z) : bool := match index_of c base58_chars with Some _ => true | None => false end.
(** Specification: its value. *)
Definition digit58 (c : Z) : Z := match index_of c base58_chars with Some i => i | None => 0 end.
