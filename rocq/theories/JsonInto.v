(** * JsonInto: reading JSON into an object which already has a value
    (include/eosio/from_json.hpp:371-414, 479-505, 533-596, 610-658 and the overloads of the library's types)

    [from_json] (TypedJson.v) gives the value after a successful call. Here the object is followed through the
    call, also when it ends with an exception: the code assigns to parts of it on the way. *)
From Verif Require Import Base Stream TypedBin Hex Decimal Name Asset Time Keys JsonInt Json Abi AbiScalar TypedJson.

(** The object after the call; [Ok]: the stream after it, [Err]: the exception thrown. *)
Definition jinto := (val * res jstream)%type.
(** A step which does not touch the object: an exception leaves it as it is. *)
Definition keeping {A} (old : val) (r : res A) (k : A -> jinto) : jinto :=
  match r with Ok a => k a | Err e => (old, Err e) | Undef w => (old, Undef w) end.

(** ** Numbers, texts *)
(** include/eosio/from_json.hpp:403-410, one digit *)
Definition int_digit (sg : bool) (n : nat) (sign limit result c : Z) : res Z :=
  let digit := convert_to sg n (c - 48) in
  let* _ := (if sg then
               let* ns := arith sg n (- sign) in
               let* a := arith sg n (ns * limit) in
               let* b := arith sg n (a + digit) in
               let* r := arith sg n (ns * result) in
               check (negb (r <? Z.quot b 10)) E_number_out_of_range
             else Ok tt) in
  let* _ := (if sg then Ok tt
             else
               let* a := arith sg n (limit - digit) in
               check (negb (Z.quot a 10 <? result)) E_number_out_of_range) in
  let* a := arith sg n (result * 10) in
  let* b := arith sg n (sign * digit) in
  let* r := arith sg n (a + b) in
  Ok (convert_to sg n r).
(** include/eosio/from_json.hpp:402-412: [result], which is the object, when the loop is left or an exception thrown *)
Fixpoint int_loop_left (sg : bool) (n : nat) (sign limit result : Z) (s : bytes) : Z :=
  match s with
  | c :: s' =>
      if (48 <=? c) && (c <=? 57)
      then match int_digit sg n sign limit result c with Ok r => int_loop_left sg n sign limit r s' | _ => result end
      else result
  | [] => result
  end.
(** include/eosio/from_json.hpp:385-414: the object after it *)
Definition int_left (sg : bool) (n : nat) (r : bytes) : Z :=
  match r with
  | 45 :: s => if sg then int_loop_left sg n (-1) (tmin sg n) 0 s else 0
  | _ => int_loop_left sg n 1 (tmax sg n) 0 r
  end.
(** include/eosio/chain_conversions.hpp:340-344: [result] when the loop is left *)
Fixpoint code_loop_left (pos : bytes) (i result : Z) : Z :=
  match pos with
  | c :: pos' =>
      if is_upper c
      then if 7 <=? i then result else code_loop_left pos' (i + 1) (Z.lor result (Z.shiftl c (8 * i) mod 2 ^ 64))
      else result
  | [] => result
  end.
(** include/eosio/chain_conversions.hpp:336-346: [result] after it *)
Definition code_left (pos : bytes) : Z := code_loop_left (snd (span (fun c => c =? 32) pos)) 0 0.
(** include/eosio/chain_conversions.hpp:361-380: [result] after it when it gives false *)
Definition symbol_left (old : Z) (pos : bytes) : Z :=
  match precision_loop pos 0 false with
  | (_, true, 44 :: pos') => code_left pos'
  | _ => old
  end.
(** include/eosio/chain_conversions.hpp:393-413: [amount] after it; [symbol] is assigned only before [return true] *)
Definition amount_left (s : bytes) : Z :=
  let (_, s) := span (fun c => c =? 32) s in
  let (negative, s) := asset_sign s in
  let (uamount, s) := amount_loop s 0 in
  let '(uamount, _, _) := asset_frac uamount s in
  to_signed 64 (if negative then (- uamount) mod 2 ^ 64 else uamount).
(** include/eosio/chain_conversions.hpp:278-301: [result] is assigned once the fields are read *)
Definition seconds_left (m : overflow_mode) (old : Z) (s : bytes) : Z :=
  match parse_fields s with
  | Some (y, mo, d, h, mi, sec, _) => match utc_seconds m y mo d h mi sec with Ok r => r | _ => old end
  | None => old
  end.
(** include/eosio/from_json.hpp:343-363 with std::back_inserter: what was inserted *)
Fixpoint unhex_left (s : bytes) : bytes :=
  match s with
  | h :: l :: s' =>
      match get_digit h, get_digit l with
      | Some vh, Some vl => Z.lor (Z.shiftl vh 4) vl :: unhex_left s'
      | _, _ => []
      end
  | _ => []
  end.
(** include/eosio/from_json.hpp:588-596 *)
Definition bytes_left (old s : bytes) : bytes := if Nat.even (List.length s) then unhex_left s else old.

(** The object of a built-in type after from_json threw, the text being [s]. include/eosio/from_json.hpp:386-414
    (integers), 479-505 (floats: [pf] is what strtof and strtod return), symbol.hpp:175-180, 253-258, asset.hpp:350-355,
    time.hpp:170-177, bytes.hpp:17-20. The other overloads assign only after everything is checked: time.hpp:90-98, 252-257,
    fixed_bytes.hpp:230-238, crypto.hpp:123-143; from_json.hpp:379-382 and name.hpp:153-157 do not throw any more. *)
Definition scalar_left (E : float_lib) (pf : nat -> bytes -> Z) (b : builtin) (old : val) (s : bytes) : val :=
  match b, old with
  | B_int8, _ => VInt (int_left true 1 s) | B_uint8, _ => VInt (int_left false 1 s)
  | B_int16, _ => VInt (int_left true 2 s) | B_uint16, _ => VInt (int_left false 2 s)
  | (B_int32 | B_varint32), _ => VInt (int_left true 4 s) | (B_uint32 | B_varuint32), _ => VInt (int_left false 4 s)
  | B_int64, _ => VInt (int_left true 8 s) | B_uint64, _ => VInt (int_left false 8 s)
  | B_int128, _ => VInt (int_left true 16 s) | B_uint128, _ => VInt (int_left false 16 s)
  | B_float32, _ => match s with [] => old | _ => VFloat 4 (pf 4%nat s) end
  | B_float64, _ => match s with [] => old | _ => VFloat 8 (pf 8%nat s) end
  | B_symbol_code, _ => VInt (code_left s)
  | B_symbol, VInt z => VInt (symbol_left z s)
  | B_asset, VList [_; sym] => VList [VInt (amount_left s); sym]
  | B_time_point_sec, VInt z => VInt (seconds_left (ov E) z s)
  | B_bytes, VStr d => VStr (bytes_left d s)
  | _, _ => old
  end.
(** from_json of a built-in type with the contents of the string or number *)
Definition scalar_into (E : float_lib) (pf : nat -> bytes -> Z) (b : builtin) (old : val) (p : bytes * jstream) : jinto :=
  let (x, s) := p in
  match scalar_from_text E b x with
  | Ok v => (v, Ok s)
  | Err e => (scalar_left E pf b old x, Err e)
  | Undef w => (old, Undef w)
  end.

(** ** Containers, structs *)
(** include/eosio/from_json.hpp:543-549: the element is inserted before it is read *)
Fixpoint items_into (f : jstream -> jinto) (fuel : nat) (l : list val) (s : jstream) : list val * res jstream :=
  match fuel with
  | O => (l, Undef "fuel")
  | S fuel' =>
      match peek_token s with
      | Ok (Some TkEndArray) => (l, Ok s)
      | Ok _ => match f s with (x, Ok s) => items_into f fuel' (l ++ [x]) s | (x, r) => (l ++ [x], r) end
      | Err e => (l, Err e)
      | Undef w => (l, Undef w)
      end
  end.
(** include/eosio/from_json.hpp:613-619 with the callback of 642-652 *)
Fixpoint members_into (ps : list (bytes * (val -> jstream -> jinto))) (fuel : nat) (l : list val) (s : jstream) : list val * res jstream :=
  match fuel with
  | O => (l, Undef "fuel")
  | S fuel' =>
      match peek_token s with
      | Ok (Some TkEndObject) => (l, Ok s)
      | Ok _ =>
          match get_key s with
          | Ok (k, s) =>
              match find_named k ps 0 with
              | Some (i, f) =>
                  match nthz l i with
                  | Some cur => match f cur s with
                                | (v, Ok s) => members_into ps fuel' (set_nth l (Z.to_nat i) v) s
                                | (v, r) => (set_nth l (Z.to_nat i) v, r)
                                end
                  | None => (l, ill)
                  end
              | None => match from_json_skip_value s with
                        | Ok s => members_into ps fuel' l s
                        | Err e => (l, Err e)
                        | Undef w => (l, Undef w)
                        end
              end
          | Err e => (l, Err e)
          | Undef w => (l, Undef w)
          end
      | Err e => (l, Err e)
      | Undef w => (l, Undef w)
      end
  end.
(** The closing bracket: include/eosio/from_json.hpp:550, 584, 620 *)
Definition closing (close : jstream -> res jstream) (p : list val * res jstream) : jinto :=
  match p with
  | (l, Ok s) => (VList l, close s)
  | (l, r) => (VList l, r)
  end.

(** include/eosio/from_json.hpp:371-382, 533-585, 640-658 *)
Fixpoint from_json_into (E : float_lib) (pf : nat -> bytes -> Z) (t : jty) (old : val) (s : jstream) {struct t} : jinto :=
  match t with
  | JScalar B_bool => keeping old (get_bool s) (fun p => (VBool (fst p), Ok (snd p)))        (* 533-537 *)
  | JScalar b => keeping old (get_string s) (scalar_into E pf b old)
  | JVec t' =>                                                                              (* 539-551 *)
      match old with
      | VList l => keeping old (get_start_array s)
                     (fun s => closing get_end_array (items_into (from_json_into E pf t' (jdefault t')) (fuel_of s) l s))
      | _ => (old, ill)
      end
  | JOpt t' =>                                                                              (* 553-562 *)
      keeping old (get_null_pred s) (fun p =>
        if fst p then (VOpt None, Ok (snd p))
        else let (x, r) := from_json_into E pf t' (jdefault t') (snd p) in (VOpt (Some x), r))
  | JVariant ts =>                                                                          (* 564-585 *)
      keeping old (get_start_array s) (fun s =>
      keeping old (get_string s) (fun p =>
        match find_named (fst p) (map (fun t' => (type_name t', from_json_into E pf t' (jdefault t'))) ts) 0 with
        | Some (i, f) => match f (snd p) with
                         | (x, Ok s) => (VVar i x, get_end_array s)
                         | (x, r) => (VVar i x, r)
                         end
        | None => (old, Err E_invalid_type_for_variant)
        end))
  | JStruct _ fs =>                                                                         (* 640-653 *)
      match old with
      | VList l => keeping old (get_start_object s)
                     (fun s => closing get_end_object (members_into (map (fun f => (fst f, from_json_into E pf (snd f))) fs) (fuel_of s) l s))
      | _ => (old, ill)
      end
  | JPair _ _ => (old, Err E_from_json_no_pair)                                             (* 655-658 *)
  | JMaybe t' => from_json_into E pf t' old s                                               (* abi.hpp:59-62 *)
  | JView | JOpaque _ | JEnum _ | JRef _ => (old, Undef "does not compile")
  end.
