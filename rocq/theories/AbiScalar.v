(** * Built-in ABI types: binary and JSON forms of one value
    (src/abieos.hpp:350-368, 718-732, 1002-1008; the overloads of from_bin,
    to_bin, from_json and to_json they select).

    The conversions of the C library from text to floating point (strtof, strtod) are
    not modelled: they are the argument [E : float_lib] of every definition that needs
    them. [E] also fixes how signed overflow in the time functions is taken ([ov], see
    Asset.v). Floating point to text is fpconv_dtoa (Fpconv.v). *)
From Verif Require Import Base Stream TypedBin TypedSpec Hex Name Asset Time Keys JsonInt Json JsonSpec Abi Fpconv.

(** The C library functions the code calls: strtof and strtod (include/eosio/from_json.hpp:480-501). *)
Record float_lib := {
  fl_parse : nat -> bytes -> option Z;     (* strtof/strtod of a whole non empty text *)
  ov : overflow_mode
}.

(** The C++ type behind each built-in name, src/abi.cpp:45-75 with the type aliases of
    src/abieos.hpp:348, 370-394. *)
(** Classes with one integer member and JSON of their own: name.hpp:29-150, symbol.hpp:24-165, 187-247, time.hpp:72-88, 108-166, 187-250.
    They are not "bitwise" (stream.hpp:53-63), so vectors of them are read element by element. *)
Definition value_class (n : string) (t : ty) : ty := TWrap (KNamed n) t.
Definition byte_array (n : nat) : ty := TArr n (TInt false 1).
Definition scalar_ty (b : builtin) : ty :=
  match b with
  | B_bool => TBool
  | B_int8 => TInt true 1 | B_uint8 => TInt false 1
  | B_int16 => TInt true 2 | B_uint16 => TInt false 2
  | B_int32 => TInt true 4 | B_uint32 => TInt false 4
  | B_int64 => TInt true 8 | B_uint64 => TInt false 8
  | B_int128 => TInt true 16 | B_uint128 => TInt false 16
  | B_varuint32 => TVaruint32 | B_varint32 => TVarint32
  | B_float32 => TFloat 4 | B_float64 => TFloat 8
  | B_float128 => byte_array 16
  | B_time_point => value_class "time_point" (TInt true 8)
  | B_time_point_sec => value_class "time_point_sec" (TInt false 4)
  | B_block_timestamp => value_class "block_timestamp" (TInt false 4)
  | B_name => value_class "name" (TInt false 8)
  | B_symbol => value_class "symbol" (TInt false 8)
  | B_symbol_code => value_class "symbol_code" (TInt false 8)
  | B_bytes => TStream
  | B_string => TString
  | B_checksum160 => byte_array 20
  | B_checksum256 => byte_array 32
  | B_checksum512 => byte_array 64
  | B_public_key => public_key_ty
  | B_private_key => private_key_ty
  | B_signature => signature_ty
  | B_asset => TTuple [TInt true 8; TInt false 8]
  end.

(** An element of a std::array<uint8_t, n> (include/eosio/crypto.hpp:21-37). *)
Definition byte_of (v : val) : Z := match v with VInt z => z | _ => 0 end.
(** A value which is not of the C++ type: no such object exists. *)
Definition ill {A} : res A := Undef "ill-typed value".

(** include/eosio/to_json.hpp:111-127 [fp_to_json] *)
Definition fp_to_json (n : nat) (bits : Z) : res bytes :=
  if float_mag n bits =? float_inf n
  then Ok (if float_sign n bits then str """-Infinity""" else str """Infinity""")
  else if is_nan n bits then Ok (str """NaN""")
  else let* t := fpconv_dtoa (as_double n bits) in
       let* _ := check (negb (beq t [])) E_float_error in
       Ok t.

(** to_json of each built-in type: include/eosio/to_json.hpp:18-63, 83-140,
    varint.hpp:227-230, 442-445, fixed_bytes.hpp:240-244, time.hpp:100-103, 179-182,
    259-262, name.hpp:159-162, symbol.hpp:170-173, 248-251, asset.hpp:345-348,
    crypto.hpp:119-139, bytes: src/abieos.hpp:362-368. *)
Definition scalar_to_json (E : float_lib) (b : builtin) (v : val) : res bytes :=
  match b, v with
  | B_bool, VBool x => Ok (if x then str "true" else str "false")
  | B_int8, VInt z => int_to_json true 1 z
  | B_uint8, VInt z => int_to_json false 1 z
  | B_int16, VInt z => int_to_json true 2 z
  | B_uint16, VInt z => int_to_json false 2 z
  | B_int32, VInt z | B_varint32, VInt z => int_to_json true 4 z
  | B_uint32, VInt z | B_varuint32, VInt z => int_to_json false 4 z
  | B_int64, VInt z => int_to_json true 8 z
  | B_uint64, VInt z => int_to_json false 8 z
  | B_int128, VInt z => int_to_json true 16 z
  | B_uint128, VInt z => int_to_json false 16 z
  | B_float32, VFloat n x | B_float64, VFloat n x => fp_to_json n x
  | B_float128, VList l | B_checksum160, VList l | B_checksum256, VList l | B_checksum512, VList l =>
      Ok (to_json_hex (map byte_of l))
  | B_time_point, VInt z => let* t := time_point_to_json_string (ov E) z in Ok (to_json_string t)
  | B_time_point_sec, VInt z => let* t := time_point_sec_to_json_string (ov E) z in Ok (to_json_string t)
  | B_block_timestamp, VInt z => let* t := block_timestamp_to_json_string (ov E) z in Ok (to_json_string t)
  | B_name, VInt z => Ok (to_json_string (name_to_json_string z))
  | B_symbol, VInt z => Ok (to_json_string (symbol_to_string z))
  | B_symbol_code, VInt z => Ok (to_json_string (symbol_code_to_string z))
  | B_bytes, VStr d => Ok (to_json_hex d)
  | B_string, VStr d => Ok (to_json_string d)
  | B_public_key, _ => let* t := public_key_to_string v in Ok (to_json_string t)
  | B_private_key, _ => let* t := private_key_to_string v in Ok (to_json_string t)
  | B_signature, _ => let* t := signature_to_string v in Ok (to_json_string t)
  | B_asset, VList [VInt a; VInt s] => let* t := asset_to_string a s in Ok (to_json_string t)
  | _, _ => ill
  end.

(** from_json(float&), from_json(double&): include/eosio/from_json.hpp:480-501 *)
Definition fp_from_json (E : float_lib) (n : nat) (s : bytes) : res val :=
  let* _ := check (negb (beq s [])) E_expected_number in
  match fl_parse E n s with
  | Some x => Ok (VFloat n x)
  | None => Err E_expected_number
  end.
(** fixed_bytes.hpp:230-238 *)
Definition fixed_from_json (n : nat) (s : bytes) : res val :=
  let* d := from_json_hex s in
  let* _ := check (Nat.eqb (List.length d) n) E_hex_string_incorrect_length in
  Ok (VList (map VInt d)).
(** The integer types as values (include/eosio/from_json.hpp:386-470). *)
Definition vint (r : res Z) : res val := let* z := r in Ok (VInt z).

(** from_json of each built-in type other than bool, on the contents of the JSON
    string or number: include/eosio/from_json.hpp:379-470, varint.hpp:222-225,
    437-440, time.hpp:90-98, 170-177, 252-257, name.hpp:153-157, symbol.hpp:175-180,
    253-258, asset.hpp:350-355, crypto.hpp:123-143. [B_bytes] is only used by the
    typed from_json (bytes.hpp:17-20), see [scalar_write]. *)
Definition scalar_from_text (E : float_lib) (b : builtin) (s : bytes) : res val :=
  match b with
  | B_bool => ill
  | B_int8 => vint (from_json_int true 1 s)
  | B_uint8 => vint (from_json_int false 1 s)
  | B_int16 => vint (from_json_int true 2 s)
  | B_uint16 => vint (from_json_int false 2 s)
  | B_int32 | B_varint32 => vint (from_json_int true 4 s)
  | B_uint32 | B_varuint32 => vint (from_json_int false 4 s)
  | B_int64 => vint (from_json_int true 8 s)
  | B_uint64 => vint (from_json_int false 8 s)
  | B_int128 => vint (from_json_int true 16 s)
  | B_uint128 => vint (from_json_int false 16 s)
  | B_float32 => fp_from_json E 4 s
  | B_float64 => fp_from_json E 8 s
  | B_float128 => fixed_from_json 16 s
  | B_checksum160 => fixed_from_json 20 s
  | B_checksum256 => fixed_from_json 32 s
  | B_checksum512 => fixed_from_json 64 s
  | B_time_point => vint (time_point_from_json_string (ov E) s)
  | B_time_point_sec => vint (time_point_sec_from_json_string (ov E) s)
  | B_block_timestamp => vint (block_timestamp_from_json_string (ov E) s)
  | B_name => Ok (VInt (name_from_json_string s))
  | B_symbol => vint (symbol_from_json_string s)
  | B_symbol_code => vint (symbol_code_from_json_string s)
  | B_bytes => let* d := from_json_hex s in Ok (VStr d)
  | B_string => Ok (VStr s)
  | B_public_key => public_key_from_string s
  | B_private_key => private_key_from_string s
  | B_signature => signature_from_string s
  | B_asset => let* a := asset_from_json_string s in Ok (VList [VInt (amount a); VInt (symbol a)])
  end.

(** src/abieos.hpp:718-724 [json_to_bin(T* )], 726-732 [json_to_bin(std::string* )] and
    350-360 [json_to_bin(bytes* )] after reading the JSON string [s]: append to [out]. *)
Definition scalar_write (E : float_lib) (b : builtin) (s : bytes) (out : bytes) : res bytes :=
  match b with
  | B_bytes =>
      let* _ := check (Nat.even (List.length s)) E_expected_hex_string in
      let* out := varuint32_to_bin vector_stream (Z.of_nat (List.length s / 2)) out in
      match unhex s with
      | Some d => Ok (out ++ d)
      | None => Err E_expected_hex_string
      end
  | _ => let* v := scalar_from_text E b s in to_bin vector_stream key_env 0 (scalar_ty b) v out
  end.

(** ** Specification: values and their binary form (C03) *)
Definition scalar_ok (b : builtin) (v : val) : Prop := wf key_env 0 (scalar_ty b) v = true.
Definition scalar_bytes (b : builtin) (v : val) : bytes :=
  match convert_to_bin key_env 0 (scalar_ty b) v [] with Ok x => x | _ => [] end.

(** ** Specification: the JSON value of a built-in value *)
(** Integers of at most 4 bytes and finite floats are JSON numbers, bool is a JSON
    bool, everything else is a JSON string. *)
Definition jstr (r : res bytes) : res jv := let* s := r in Ok (JStr s).
Definition float_jv (n : nat) (bits : Z) : res jv :=
  if float_mag n bits =? float_inf n
  then Ok (JStr (if float_sign n bits then str "-Infinity" else str "Infinity"))
  else if is_nan n bits then Ok (JStr (str "NaN"))
  else let* t := fpconv_dtoa (as_double n bits) in
       match t with
       | [] => Err E_float_error
       | t => Ok (JNum t)
       end.
Definition scalar_jv (E : float_lib) (b : builtin) (v : val) : res jv :=
  match b, v with
  | B_bool, VBool x => Ok (JBool x)
  | B_int8, VInt z | B_uint8, VInt z | B_int16, VInt z | B_uint16, VInt z | B_int32, VInt z
  | B_varint32, VInt z | B_uint32, VInt z | B_varuint32, VInt z => Ok (JNum (int_notation z))
  | B_int64, VInt z | B_uint64, VInt z | B_int128, VInt z | B_uint128, VInt z => Ok (JStr (int_notation z))
  | B_float32, VFloat _ x => float_jv 4 x
  | B_float64, VFloat _ x => float_jv 8 x
  | B_float128, VList l | B_checksum160, VList l | B_checksum256, VList l | B_checksum512, VList l =>
      Ok (JStr (hex (map byte_of l)))
  | B_time_point, VInt z => jstr (time_point_to_json_string (ov E) z)
  | B_time_point_sec, VInt z => jstr (time_point_sec_to_json_string (ov E) z)
  | B_block_timestamp, VInt z => jstr (block_timestamp_to_json_string (ov E) z)
  | B_name, VInt z => Ok (JStr (name_to_string z))
  | B_symbol, VInt z => Ok (JStr (symbol_to_string z))
  | B_symbol_code, VInt z => Ok (JStr (symbol_code_to_string z))
  | B_bytes, VStr d => Ok (JStr (hex d))
  | B_string, VStr d => Ok (JStr d)
  | B_public_key, _ => jstr (public_key_to_string v)
  | B_private_key, _ => jstr (private_key_to_string v)
  | B_signature, _ => jstr (signature_to_string v)
  | B_asset, VList [VInt a; VInt s] => jstr (asset_to_string a s)
  | _, _ => ill
  end.

(** The compact text of a JSON value: no white space; strings as the string writer
    ([to_json_string], C25) writes them. *)
Fixpoint sep_concat (l : list bytes) : bytes :=
  match l with
  | [] => []
  | [x] => x
  | x :: l' => x ++ [44] ++ sep_concat l'
  end.
Fixpoint print (j : jv) : bytes :=
  match j with
  | JNull => str "null"
  | JBool b => if b then str "true" else str "false"
  | JStr s => to_json_string s
  | JNum t => t
  | JArr l => [91] ++ sep_concat (map print l) ++ [93]
  | JObj l => [123] ++ sep_concat (map (fun kv => to_json_string (fst kv) ++ [58] ++ print (snd kv)) l) ++ [125]
  end.
