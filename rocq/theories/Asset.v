(** * Asset: symbol codes, symbols, assets *)
From Verif Require Import Base Decimal Name.

(** Loops (include/eosio/chain_conversions.hpp:340, 372, 402, 406) which advance [pos] while a condition holds: the characters skipped and the rest. *)
Fixpoint span (p : Z -> bool) (s : bytes) : bytes * bytes :=
  match s with
  | [] => ([], [])
  | c :: s' => if p c then let (a, b) := span p s' in (c :: a, b) else ([], s)
  end.

(** ** Symbol codes
    include/eosio/chain_conversions.hpp:340 ['A' <= c <= 'Z'] *)
Definition is_upper (c : Z) : bool := (65 <=? c) && (c <=? 90).

(** include/eosio/chain_conversions.hpp:340-344: the loop over A-Z. [i] is the counter. *)
Fixpoint symbol_code_loop (pos : bytes) (i : Z) (result : Z) : option (Z * Z * bytes) :=
  match pos with
  | [] => Some (result, i, [])
  | c :: pos' =>
      if is_upper c then
        if 7 <=? i then None
        else symbol_code_loop pos' (i + 1) (Z.lor result (Z.shiftl c (8 * i) mod 2 ^ 64))
      else Some (result, i, pos)
  end.
(** include/eosio/chain_conversions.hpp:336-346 [string_to_symbol_code(result, pos, end,
    require_end)]: [None] is [false]; otherwise the result and the new [pos]. *)
Definition string_to_symbol_code_at (require_end : bool) (pos : bytes) : option (Z * bytes) :=
  let (_, pos) := span (fun c => c =? 32) pos in
  match symbol_code_loop pos 0 0 with
  | None => None
  | Some (result, i, pos) =>
      if negb (i =? 0) && (match pos with [] => true | _ => negb require_end end)
      then Some (result, pos) else None
  end.
(** :348-350 *)
Definition string_to_symbol_code (s : bytes) : option Z :=
  option_map fst (string_to_symbol_code_at true s).

(** include/eosio/chain_conversions.hpp:352-359 [symbol_code_to_string]: at most 8 passes on a
    uint64_t. *)
Fixpoint symbol_code_to_string_loop (fuel : nat) (v : Z) : bytes :=
  match fuel with
  | O => []
  | S f => if 0 <? v then Z.land v 255 :: symbol_code_to_string_loop f (Z.shiftr v 8) else []
  end.
(** include/eosio/chain_conversions.hpp:352-359 *)
Definition symbol_code_to_string (v : Z) : bytes := symbol_code_to_string_loop 8 v.

(** include/eosio/symbol.hpp:56-67 [symbol_code(std::string_view)]. *)
Definition symbol_code_ctor (s : bytes) : res Z :=
  let* _ := check (Nat.leb (List.length s) 7) E_symbol_code_too_long in
  mfold (fun value c =>
           let* _ := check (is_upper c) E_symbol_code_uppercase in
           Ok (Z.lor (Z.shiftl value 8 mod 2 ^ 64) c)) (rev s) 0.

(** include/eosio/symbol.hpp:73-90 [symbol_code::is_valid]. The inner do-while runs [7 - i]
    times or returns false; then the outer loop ends. The characters are compared as
    (signed) char: bytes above 127 are not letters either way. *)
Fixpoint is_valid_tail (n : nat) (sym : Z) : bool :=
  match n with
  | O => true
  | S n' => let sym' := Z.shiftr sym 8 in
            if negb (Z.land sym' 255 =? 0) then false else is_valid_tail n' sym'
  end.
(** include/eosio/symbol.hpp:73-90: the outer loop *)
Fixpoint is_valid_loop (n : nat) (sym : Z) : bool :=
  match n with
  | O => true
  | S n' =>
      if negb (is_upper (Z.land sym 255)) then false
      else let sym' := Z.shiftr sym 8 in
           if Z.land sym' 255 =? 0 then is_valid_tail n sym' else is_valid_loop n' sym'
  end.
(** include/eosio/symbol.hpp:73-90: 7 passes *)
Definition symbol_code_is_valid (value : Z) : bool := is_valid_loop 7 value.

(** include/eosio/symbol.hpp:97-105 [symbol_code::length] *)
Fixpoint symbol_code_length_loop (n : nat) (sym len : Z) : Z :=
  match n with
  | O => len
  | S n' => if negb (Z.land sym 255 =? 0) && (len <=? 7)
            then symbol_code_length_loop n' (Z.shiftr sym 8) (len + 1) else len
  end.
(** include/eosio/symbol.hpp:97-105: no uint64_t needs more than 8 passes *)
Definition symbol_code_length (value : Z) : Z := symbol_code_length_loop 9 value 0.

(** ** Symbols *)
(** include/eosio/symbol.hpp:207, :226, :231, :221 *)
Definition symbol_make (code precision : Z) : Z := Z.lor (Z.shiftl code 8 mod 2 ^ 64) precision.
(** include/eosio/symbol.hpp:226 *)
Definition symbol_precision (value : Z) : Z := Z.land value 255.
(** include/eosio/symbol.hpp:231 *)
Definition symbol_code_of (value : Z) : Z := Z.shiftr value 8.
(** include/eosio/symbol.hpp:221 *)
Definition symbol_is_valid (value : Z) : bool := symbol_code_is_valid (symbol_code_of value).

(** include/eosio/symbol.hpp:215-216 [symbol(std::string_view, uint8_t)] *)
Definition symbol_ctor (ss : bytes) (precision : Z) : res Z :=
  let* code := symbol_code_ctor ss in Ok (symbol_make code precision).
(** include/eosio/symbol.hpp:110-142 [symbol_code::suffix]: the same text as [name::suffix]
    (include/eosio/name.hpp:75-107), applied to the value of the symbol code. *)
Definition symbol_code_suffix (value : Z) : Z := name_suffix value.
(** include/eosio/symbol.hpp:164, :242 [EOSIO_COMPARE]: both classes have one uint64_t field. *)
Definition symbol_lt (a b : Z) : bool := a <? b.

(** include/eosio/chain_conversions.hpp:361-367 *)
Definition string_to_symbol_prec (require_end : bool) (precision : Z) (pos : bytes) : option (Z * bytes) :=
  match string_to_symbol_code_at require_end pos with
  | None => None
  | Some (result, pos) => Some (Z.lor (Z.shiftl result 8 mod 2 ^ 64) precision, pos)
  end.
(** include/eosio/chain_conversions.hpp:372-376: [precision] is a uint8_t. *)
Fixpoint precision_loop (pos : bytes) (precision : Z) (found : bool) : Z * bool * bytes :=
  match pos with
  | [] => (precision, found, [])
  | c :: pos' => if is_digit c then precision_loop pos' ((precision * 10 + (c - 48)) mod 256) true
                 else (precision, found, pos)
  end.
(** include/eosio/chain_conversions.hpp:369-384 *)
Definition string_to_symbol_at (require_end : bool) (pos : bytes) : option (Z * bytes) :=
  let '(precision, found, pos) := precision_loop pos 0 false in
  if found then
    match pos with
    | [] => None
    | c :: pos' => if c =? 44 then string_to_symbol_prec require_end precision pos' else None
    end
  else None.
(** include/eosio/chain_conversions.hpp:369-384 with [expect_end] *)
Definition string_to_symbol (s : bytes) : option Z := option_map fst (string_to_symbol_at true s).

(** include/eosio/chain_conversions.hpp:386-388 *)
Definition symbol_to_string (v : Z) : bytes :=
  dec (Z.land v 255) ++ [44] ++ symbol_code_to_string (Z.shiftr v 8).

(** include/eosio/symbol.hpp:170-180 and :248-258: the JSON string contents. *)
Definition symbol_code_from_json_string (s : bytes) : res Z :=
  match string_to_symbol_code s with Some v => Ok v | None => Err E_expected_symbol_code end.
(** include/eosio/symbol.hpp:253-258 *)
Definition symbol_from_json_string (s : bytes) : res Z :=
  match string_to_symbol s with Some v => Ok v | None => Err E_expected_symbol end.

(** ** Assets *)
(** include/eosio/chain_conversions.hpp:402-403 *)
Fixpoint amount_loop (s : bytes) (u : Z) : Z * bytes :=
  match s with
  | [] => (u, [])
  | c :: s' => if is_digit c then amount_loop s' ((u * 10 + (c - 48)) mod 2 ^ 64) else (u, s)
  end.
(** :406-409 *)
Fixpoint fraction_loop (s : bytes) (u precision : Z) : Z * Z * bytes :=
  match s with
  | [] => (u, precision, [])
  | c :: s' => if is_digit c then fraction_loop s' ((u * 10 + (c - 48)) mod 2 ^ 64) ((precision + 1) mod 256)
               else (u, precision, s)
  end.
(** :397-401: the optional minus sign. *)
Definition asset_sign (s : bytes) : bool * bytes :=
  match s with c :: s' => if c =? 45 then (true, s') else (false, s) | [] => (false, s) end.
(** :404-410: the optional fraction. *)
Definition asset_frac (u : Z) (s : bytes) : Z * Z * bytes :=
  match s with
  | c :: s' => if c =? 46 then fraction_loop s' u 0 else (u, 0, s)
  | [] => (u, 0, s)
  end.
(** include/eosio/chain_conversions.hpp:390-419 [string_to_asset]: amount, symbol, new position. *)
Definition string_to_asset_at (expect_end : bool) (s : bytes) : option (Z * Z * bytes) :=
  let (_, s) := span (fun c => c =? 32) s in
  let (negative, s) := asset_sign s in
  let (u, s) := amount_loop s 0 in
  let '(u, precision, s) := asset_frac u s in
  let u := if negative then (- u) mod 2 ^ 64 else u in
  let amount := to_signed 64 u in
  match string_to_symbol_code_at expect_end s with
  | None => None
  | Some (code, s) => Some (amount, Z.lor (Z.shiftl code 8 mod 2 ^ 64) precision, s)
  end.
(** :421-423 *)
Definition string_to_asset (s : bytes) : option (Z * Z) :=
  option_map fst (string_to_asset_at true s).

(** include/eosio/chain_conversions.hpp:433-439: the fraction digits, least significant first. *)
Fixpoint asset_fraction (precision : nat) (u : Z) (acc : bytes) : Z * bytes :=
  match precision with
  | O => (u, acc)
  | S p => asset_fraction p (u / 10) (acc ++ [48 + u mod 10])
  end.
(** :440-443: do-while; a uint64_t has at most 20 digits. *)
Fixpoint asset_int (fuel : nat) (u : Z) (acc : bytes) : res bytes :=
  match fuel with
  | O => Undef "fuel"
  | S f => let acc' := acc ++ [48 + u mod 10] in
           if u / 10 =? 0 then Ok acc' else asset_int f (u / 10) acc'
  end.
(** include/eosio/chain_conversions.hpp:425-448 [asset_to_string]. [-amount] overflows for
    INT64_MIN. *)
Definition asset_to_string (amount symbol : Z) : res bytes :=
  let* uamount := (if amount <? 0
                   then if amount =? - 2 ^ 63 then Undef "signed overflow" else Ok (- amount)
                   else Ok amount) in
  let precision := symbol mod 256 in
  let (uamount, result) :=
    if precision =? 0 then (uamount, [])
    else let (u, r) := asset_fraction (Z.to_nat precision) uamount [] in (u, r ++ [46]) in
  let* result := asset_int 21 uamount result in
  let result := if amount <? 0 then result ++ [45] else result in
  Ok (rev result ++ [32] ++ symbol_code_to_string (Z.shiftr symbol 8)).

(** include/eosio/asset.hpp:25-38: the members *)
Record asset := { amount : Z; symbol : Z }.
(** include/eosio/asset.hpp:40 *)
Definition max_amount : Z := 2 ^ 62 - 1.

(** include/eosio/asset.hpp:61, :69 *)
Definition is_amount_within_range (a : asset) : bool := (- max_amount <=? amount a) && (amount a <=? max_amount).
(** include/eosio/asset.hpp:69 *)
Definition asset_is_valid (a : asset) : bool := is_amount_within_range a && symbol_is_valid (symbol a).

(** include/eosio/asset.hpp:50-53 [asset(int64_t, symbol)] *)
Definition asset_ctor (a s : Z) : res asset :=
  let r := {| amount := a; symbol := s |} in
  let* _ := check (is_amount_within_range r) E_asset_magnitude in
  let* _ := check (symbol_is_valid s) E_invalid_symbol_name in
  Ok r.
(** include/eosio/asset.hpp:336-343 [from_string(asset&)] *)
Definition asset_from_string (s : bytes) : res asset :=
  match string_to_asset s with
  | None => Err E_invalid_asset_format
  | Some (a, sym) => asset_ctor a sym
  end.
(** include/eosio/asset.hpp:350-355 [from_json(asset&)] on the JSON string contents: no range check. *)
Definition asset_from_json_string (s : bytes) : res asset :=
  match string_to_asset s with
  | None => Err E_expected_symbol_code
  | Some (a, sym) => Ok {| amount := a; symbol := sym |}
  end.

(** ** Arithmetic
    Signed overflow: undefined in C++ ([Strict]); two's complement wrap is what compilers
    commonly produce ([Wrap]). *)
Inductive overflow_mode := Strict | Wrap.
(** The result [z] of one operator on int64_t. *)
Definition int64_op (m : overflow_mode) (z : Z) : res Z :=
  if fits_s 64 z then Ok z else match m with Strict => Undef "signed overflow" | Wrap => Ok (wrap_s 64 z) end.

(** In-place operators return the final left operand and the outcome (an exception leaves
    the left operand as it is at that point). *)
Definition in_place := (asset * res unit)%type.

(** include/eosio/asset.hpp:101-107, :116-122 (operators -= and +=) *)
Definition asset_sub_assign (m : overflow_mode) (x a : asset) : in_place :=
  if negb (symbol a =? symbol x) then (x, Err E_subtract_symbol_mismatch) else
  match int64_op m (amount x - amount a) with
  | Ok r => ({| amount := r; symbol := symbol x |},
             let* _ := check (- max_amount <=? r) E_subtraction_underflow in
             check (r <=? max_amount) E_subtraction_overflow)
  | Err e => (x, Err e)
  | Undef w => (x, Undef w)
  end.
(** include/eosio/asset.hpp:116-122 (+=) *)
Definition asset_add_assign (m : overflow_mode) (x a : asset) : in_place :=
  if negb (symbol a =? symbol x) then (x, Err E_add_symbol_mismatch) else
  match int64_op m (amount x + amount a) with
  | Ok r => ({| amount := r; symbol := symbol x |},
             let* _ := check (- max_amount <=? r) E_addition_underflow in
             check (r <=? max_amount) E_addition_overflow)
  | Err e => (x, Err e)
  | Undef w => (x, Undef w)
  end.
(** include/eosio/asset.hpp:160-166: 128 bit product (never overflows 128 bits). *)
Definition asset_mul_assign (x : asset) (a : Z) : in_place :=
  let tmp := amount x * a in
  if negb (tmp <=? max_amount) then (x, Err E_multiplication_overflow)
  else if negb (- max_amount <=? tmp) then (x, Err E_multiplication_underflow)
  else ({| amount := to_signed 64 (tmp mod 2 ^ 64); symbol := symbol x |}, Ok tt).
(** include/eosio/asset.hpp:209-214: C++ division truncates toward zero ([Z.quot]). *)
Definition asset_div_assign (x : asset) (a : Z) : in_place :=
  if a =? 0 then (x, Err E_divide_by_zero)
  else if (amount x =? - 2 ^ 63) && (a =? -1) then (x, Err E_signed_division_overflow)
  else ({| amount := Z.quot (amount x) a; symbol := symbol x |}, Ok tt).

(** A by-value operator: a copy, the in-place operator on it, the copy (include/eosio/asset.hpp:131-135). *)
Definition by_value (r : in_place) : res asset := let (x, o) := r in let* _ := o in Ok x.
(** include/eosio/asset.hpp:131-148, :178-197, :223-227: the by-value operators. *)
Definition asset_add m a b := by_value (asset_add_assign m a b).
(** include/eosio/asset.hpp:144-148 *)
Definition asset_sub m a b := by_value (asset_sub_assign m a b).
(** include/eosio/asset.hpp:178-197 *)
Definition asset_mul a n := by_value (asset_mul_assign a n).
(** include/eosio/asset.hpp:223-227 *)
Definition asset_div a n := by_value (asset_div_assign a n).
(** include/eosio/asset.hpp:88-92 (unary minus) *)
Definition asset_neg (m : overflow_mode) (a : asset) : res asset :=
  let* r := int64_op m (- amount a) in Ok {| amount := r; symbol := symbol a |}.
(** include/eosio/asset.hpp:237-241 (asset / asset) *)
Definition asset_ratio (m : overflow_mode) (a b : asset) : res Z :=
  let* _ := check (negb (amount b =? 0)) E_divide_by_zero in
  let* _ := check (symbol a =? symbol b) E_compare_symbol_mismatch in
  int64_op m (Z.quot (amount a) (amount b)).
(** include/eosio/asset.hpp:252-322: comparisons. *)
Definition asset_cmp (f : Z -> Z -> bool) (a b : asset) : res bool :=
  let* _ := check (symbol a =? symbol b) E_compare_symbol_mismatch in
  Ok (f (amount a) (amount b)).
(** include/eosio/asset.hpp:252-255 *)
Definition asset_eq := asset_cmp Z.eqb.
(** include/eosio/asset.hpp:266 *)
Definition asset_ne a b := let* r := asset_eq a b in Ok (negb r).
(** include/eosio/asset.hpp:277-280 *)
Definition asset_lt := asset_cmp Z.ltb.
(** include/eosio/asset.hpp:291-294 *)
Definition asset_le := asset_cmp Z.leb.
(** include/eosio/asset.hpp:305-308 *)
Definition asset_gt := asset_cmp (fun x y => y <? x).
(** include/eosio/asset.hpp:319-322 *)
Definition asset_ge := asset_cmp (fun x y => y <=? x).

(** include/eosio/asset.hpp:362-455 [extended_asset]. *)
Record extended_asset := { quantity : asset; contract : Z }.
(** include/eosio/asset.hpp:401, 407, 413, 420, 427, 443, 449 *)
Definition same_contract (a b : extended_asset) : res unit := check (contract a =? contract b) E_type_mismatch.
(** include/eosio/asset.hpp:406-409 *)
Definition ext_add m (a b : extended_asset) : res extended_asset :=
  let* _ := same_contract a b in
  let* q := asset_add m (quantity a) (quantity b) in Ok {| quantity := q; contract := contract a |}.
(** include/eosio/asset.hpp:400-403 *)
Definition ext_sub m (a b : extended_asset) : res extended_asset :=
  let* _ := same_contract a b in
  let* q := asset_sub m (quantity a) (quantity b) in Ok {| quantity := q; contract := contract a |}.
(** include/eosio/asset.hpp:426-429 *)
Definition ext_lt a b := let* _ := same_contract a b in asset_lt (quantity a) (quantity b).
(** include/eosio/asset.hpp:442-445 *)
Definition ext_le a b := let* _ := same_contract a b in asset_le (quantity a) (quantity b).
(** include/eosio/asset.hpp:448-451 *)
Definition ext_ge a b := let* _ := same_contract a b in asset_ge (quantity a) (quantity b).
(** :432-439: std::tuple ==, which compares the quantities first and stops at a difference. *)
Definition ext_eq (a b : extended_asset) : res bool :=
  let* q := asset_eq (quantity a) (quantity b) in
  Ok (if q then contract a =? contract b else false).
(** include/eosio/asset.hpp:437-439: std::tuple != is the negation of == *)
Definition ext_ne (a b : extended_asset) : res bool := let* r := ext_eq a b in Ok (negb r).
(** :453 *)
Definition ext_to_string (a : extended_asset) : res bytes :=
  let* q := asset_to_string (amount (quantity a)) (symbol (quantity a)) in
  Ok (q ++ [64] ++ name_to_string (contract a)).

(** include/eosio/asset.hpp:76-79 [set_amount]: the amount is stored before it is checked. *)
Definition asset_set_amount (x : asset) (a : Z) : in_place :=
  let x := {| amount := a; symbol := symbol x |} in
  (x, check (is_amount_within_range x) E_asset_magnitude).
(** include/eosio/asset.hpp:388 [extended_asset(int64_t, extended_symbol)] *)
Definition ext_ctor (v sym c : Z) : res extended_asset :=
  let* q := asset_ctor v sym in Ok {| quantity := q; contract := c |}.
(** include/eosio/asset.hpp:397 (unary minus) *)
Definition ext_neg (m : overflow_mode) (a : extended_asset) : res extended_asset :=
  let* q := asset_neg m (quantity a) in Ok {| quantity := q; contract := contract a |}.
(** include/eosio/asset.hpp:412-423: the in place operators. *)
Definition ext_in_place (f : asset -> asset -> in_place) (a b : extended_asset) : extended_asset * res unit :=
  if contract a =? contract b
  then let (q, o) := f (quantity a) (quantity b) in ({| quantity := q; contract := contract a |}, o)
  else (a, Err E_type_mismatch).
(** include/eosio/asset.hpp:412-416 *)
Definition ext_add_assign m := ext_in_place (asset_add_assign m).
(** include/eosio/asset.hpp:419-423 *)
Definition ext_sub_assign m := ext_in_place (asset_sub_assign m).
