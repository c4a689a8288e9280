(** * Capi: the C interface (src/abieos.cpp, include/eosio/abieos.h)
    A context is a record, a call is a relation between the context before, the call with its
    arguments, the context after and what the caller sees. It is a relation because the
    conversions are (see Machine.v); every call is deterministic (proved in CapiFacts.v).
    - A [const char*] argument is [None] (a null pointer) or the bytes in memory up to and
      including at least the first NUL; reading it as a C string gives [cstr]. A [(data, size)]
      argument is [None] (null pointer, any size) or the [size] bytes it points to.
    - A returned [const char*] is seen as the C string it points to at that time. Lifetimes of
      returned pointers and arguments which point into the context: see CapiPtr.v.
    - There is always enough memory here; for calls which run out of it see CapiOom.v. *)
From Verif Require Import Base Stream TypedBin Hex Name Json Abi AbiScalar AbiBin AbiJson AbiDef.

(** src/abieos.cpp:12-19. [last_error] is the text it points to: a literal or last_error_buffer.
    [contracts] is an association list instead of a std::map; only find and insert are used. *)
Record context := Ctx { last_error : bytes; result_str : bytes; result_bin : bytes; contracts : list (Z * abi) }.
(** src/abieos.cpp:51-59 abieos_create: a value initialised context *)
Definition create : context := Ctx [] [] [] [].

(** [context->last_error = ...], src/abieos.cpp:26-30, 104, 121, 189, 206, 224 *)
Definition with_error (c : context) (m : bytes) : context := Ctx m (result_str c) (result_bin c) (contracts c).
(** [context->result_str = ...], src/abieos.cpp:83-84, 96, 233 *)
Definition with_str (c : context) (s : bytes) : context := Ctx (last_error c) s (result_bin c) (contracts c).
(** [context->result_bin = ...], src/abieos.cpp:195-196, 212-213 *)
Definition with_bin (c : context) (b : bytes) : context := Ctx (last_error c) (result_str c) b (contracts c).
(** [context->contracts], src/abieos.cpp:114, 135, 194, 211, 231 *)
Definition with_contracts (c : context) (l : list (Z * abi)) : context := Ctx (last_error c) (result_str c) (result_bin c) l.

(** src/abieos.cpp:21-24 fix_null_str, and the conversion of a [const char*] to a std::string *)
Definition text_arg (s : option bytes) : bytes := match s with None => [] | Some b => cstr b end.

(** [std::exception::what()] of the exceptions the library throws: the texts of
    include/eosio/stream.hpp:31-51, include/eosio/from_json.hpp:67-123, include/eosio/abi.hpp:26-39,
    thrown by eosio::check (include/eosio/check.hpp:42-48, 82-85) as std::runtime_error.
    Simplification: the text of std::length_error is that of libstdc++. *)
Definition what (e : error) : bytes :=
  match e with
  | E_overrun => str "Stream overrun"
  | E_underrun => str "Stream underrun"
  | E_float_error => str "Float error"
  | E_varuint_too_big => str "Varuint too big"
  | E_invalid_varuint_encoding => str "Invalid varuint encoding"
  | E_bad_variant_index => str "Bad variant index"
  | E_invalid_asset_format => str "Invalid asset format"
  | E_array_size_mismatch => str "T[] size and unpacked size don't match"
  | E_invalid_name_char => str "character is not in allowed character set for names"
  | E_invalid_name_char13 => str "thirteenth character in name cannot be a letter that comes after j"
  | E_name_too_long => str "string is too long to be a valid name"
  | E_json_writer_error => str "Error writing json"
  | E_expected_end => str "Expected end of json"
  | E_expected_null => str "Expected null"
  | E_expected_bool => str "Expected true or false"
  | E_expected_string => str "Expected string"
  | E_expected_hex_string => str "Expected string containing hex"
  | E_hex_string_incorrect_length => str "Hex string has incorrect length"
  | E_invalid_signature => str "Invalid signature format"
  | E_invalid_name => str "Invalid name"
  | E_expected_start_object => str "Expected {"
  | E_expected_key => str "Expected key"
  | E_expected_end_object => str "Expected }"
  | E_expected_start_array => str "Expected ["
  | E_expected_end_array => str "Expected ]"
  | E_expected_positive_uint => str "Expected positive integer"
  | E_expected_field => str "Expected field"
  | E_expected_variant => str "Expected variant: [""type"", value]"
  | E_expected_public_key => str "Expected public key"
  | E_expected_private_key => str "Expected private key"
  | E_expected_signature => str "Expected signature"
  | E_expected_number => str "Expected number or boolean"
  | E_expected_int => str "Expected integer"
  | E_expected_time_point => str "Expected time point"
  | E_expected_symbol_code => str "Expected symbol code"
  | E_expected_symbol => str "Expected symbol"
  | E_expected_asset => str "Expected asset"
  | E_invalid_type_for_variant => str "Invalid type for variant"
  | E_unexpected_field => str "Unexpected field"
  | E_number_out_of_range => str "number is out of range"
  | E_from_json_no_pair => str "from_json does not support std::pair"
  | E_document_empty => str "The document is empty"
  | E_document_root_not_singular => str "The document root must not follow by other values"
  | E_value_invalid => str "Invalid value"
  | E_object_miss_name => str "Missing a name for object member"
  | E_object_miss_colon => str "Missing a colon after a name of object member"
  | E_object_miss_comma_or_curly_bracket => str "Missing a comma or '}' after an object member"
  | E_array_miss_comma_or_square_bracket => str "Missing a comma or ']' after an array element"
  | E_string_unicode_escape_invalid_hex => str "Incorrect hex digit after \u escape in string"
  | E_string_unicode_surrogate_invalid => str "The surrogate pair in string is invalid"
  | E_string_escape_invalid => str "Invalid escape character in string"
  | E_string_miss_quotation_mark => str "Missing a closing quotation mark in string"
  | E_string_invalid_encoding => str "Invalid encoding in string"
  | E_number_too_big => str "Number too big to be stored in double"
  | E_number_miss_fraction => str "Miss fraction part in number"
  | E_number_miss_exponent => str "Miss exponent in number"
  | E_terminated => str "Parsing was terminated"
  | E_unspecific_syntax_error => str "Unspecific syntax error"
  | E_recursion_limit_reached => str "Recursion limit reached"
  | E_invalid_nesting => str "Invalid nesting"
  | E_unknown_type => str "Unknown type"
  | E_missing_name => str "Missing name"
  | E_redefined_type => str "Redefined type"
  | E_base_not_a_struct => str "Base not a struct"
  | E_extension_typedef => str "Extension typedef"
  | E_bad_abi => str "Bad ABI"
  | E_length_error => str "vector::_M_default_append"
  | E_addition_overflow => str "addition overflow"
  | E_addition_underflow => str "addition underflow"
  | E_add_symbol_mismatch => str "attempt to add asset with different symbol"
  | E_subtract_symbol_mismatch => str "attempt to subtract asset with different symbol"
  | E_block_timestamp_overflow => str "block timestamp overflow"
  | E_compare_symbol_mismatch => str "comparison of assets with different symbols is not allowed"
  | E_divide_by_zero => str "divide by zero"
  | E_invalid_symbol_name => str "invalid symbol name"
  | E_asset_magnitude => str "magnitude of asset amount must be less than 2^62"
  | E_multiplication_overflow => str "multiplication overflow"
  | E_multiplication_underflow => str "multiplication underflow"
  | E_symbol_code_uppercase => str "only uppercase letters allowed in symbol_code string"
  | E_signed_division_overflow => str "signed division overflow"
  | E_symbol_code_too_long => str "string is too long to be a valid symbol_code"
  | E_subtraction_overflow => str "subtraction overflow"
  | E_subtraction_underflow => str "subtraction underflow"
  | E_type_mismatch => str "type mismatch"
  | E_unknown_status => str "unknown status"
  end.

(** What a call gives its caller (the return types in src/abieos.h). *)
Inductive ret :=
| R_bool (b : bool)             (* abieos_bool *)
| R_text (t : option bytes)     (* const char*: null, or the C string there *)
| R_data (d : option bytes)     (* abieos_get_bin_data: null, or the bytes of the vector *)
| R_int (z : Z).                (* int or uint64_t *)
Inductive outcome := Returns (r : ret) | Undefined (w : string).

(** The calls of src/abieos.h:12-73 with their arguments. *)
Inductive op :=
| Get_error | Get_bin_size | Get_bin_data | Get_bin_hex
| String_to_name (s : option bytes)
| Name_to_string (n : Z)
| Set_abi (contract : Z) (abi : option bytes)
| Set_abi_bin (contract : Z) (data : option bytes)
| Set_abi_hex (contract : Z) (hex : option bytes)
| Get_type_for_action (contract action : Z)
| Get_type_for_table (contract table : Z)
| Json_to_bin (contract : Z) (type json : option bytes)
| Json_to_bin_reorderable (contract : Z) (type json : option bytes)
| Bin_to_json (contract : Z) (type data : option bytes)
| Hex_to_json (contract : Z) (type hex : option bytes).

(** How the function passed to handle_exceptions (src/abieos.cpp:32-49) ends. *)
Inductive ended := Value (r : ret) | Throws (m : bytes) | Undef_ (w : string).
(** A function passed to handle_exceptions (src/abieos.cpp:32-49): the context before and after it and how it ends. *)
Definition body := context -> context -> ended -> Prop.
(** src/abieos.cpp:26-49: set_error and handle_exceptions. All exceptions thrown by the library
    are std::exceptions. The context after undefined behaviour means nothing. *)
Definition handle_exceptions (x : option context) (errval : ret) (f : body) (x' : option context) (o : outcome) : Prop :=
  match x with
  | None => x' = None /\ o = Returns errval
  | Some c => exists c' e, f c c' e /\
      match e with
      | Value r => x' = Some c' /\ o = Returns r
      | Throws m => x' = Some (with_error c' (cstr m)) /\ o = Returns errval
      | Undef_ w => x' = Some c' /\ o = Undefined w
      end
  end.

(** src/abieos.hpp:459-463 check_abi_version *)
Definition check_abi_version (s : bytes) : bool := beq (firstn 13 s) (str "eosio::abi/1.").
(** src/abieos.hpp:461 *)
Definition unsupported : bytes := str "unsupported abi version".
(** std::map::find, src/abieos.cpp:156, 171, 190, 207, 225 *)
Fixpoint cfind (k : Z) (l : list (Z * abi)) : option abi :=
  match l with [] => None | (k', a) :: l' => if k =? k' then Some a else cfind k l' end.
(** std::map::insert, src/abieos.cpp:114, 135: an entry which is there stays. *)
Definition insert (k : Z) (a : abi) (l : list (Z * abi)) : list (Z * abi) :=
  match cfind k l with None => l ++ [(k, a)] | Some _ => l end.
(** src/abieos.cpp:194, 211, 231: an update of the entry found for [k], through the reference the map gives out. *)
Fixpoint update (k : Z) (a : abi) (l : list (Z * abi)) : list (Z * abi) :=
  match l with
  | [] => []
  | (k', a') :: l' => if k =? k' then (k', a) :: l' else (k', a') :: update k a l'
  end.

(** convert and insert (src/abieos.cpp:112-115 and 133-136) *)
Definition load (k : Z) (d : abi_def) : body := fun c c' e =>
  match convert d with
  | Ok a => c' = with_contracts c (insert k a (contracts c)) /\ e = Value (R_bool true)
  | Err x => c' = c /\ e = Throws (what x)
  | Undef w => c' = c /\ e = Undef_ w
  end.
(** src/abieos.cpp:101-117 *)
Definition set_abi_body (E : float_lib) (k : Z) (text : bytes) : body := fun c c' e =>
  let c := with_error c (str "abi parse error") in
  match abi_def_from_json E (open_json text) with
  | Err x => c' = c /\ e = Throws (what x)
  | Undef w => c' = c /\ e = Undef_ w
  | Ok (d, _) =>
      if check_abi_version (ad_version d) then load k d c c' e
      else c' = with_error c unsupported /\ e = Value (R_bool false)
  end.
(** src/abieos.cpp:119-138 *)
Definition set_abi_bin_body (k : Z) (data : option bytes) : body := fun c c' e =>
  let c := with_error c (str "abi parse error") in
  match data with
  | None | Some [] => c' = with_error c (str "no data") /\ e = Value (R_bool false)
  | Some b =>
      match from_bin no_env 0 TString b with
      | Err x => c' = c /\ e = Throws (what x)
      | Undef w => c' = c /\ e = Undef_ w
      | Ok (v, _) =>
          match v with
          | VStr version =>
              if check_abi_version version then
                match abi_def_from_bin b with
                | Err x => c' = c /\ e = Throws (what x)
                | Undef w => c' = c /\ e = Undef_ w
                | Ok (d, _) => load k d c c' e
                end
              else c' = with_error c unsupported /\ e = Value (R_bool false)
          | _ => c' = c /\ e = Undef_ "not a string"
          end
      end
  end.
(** src/abieos.cpp:119-138 *)
Definition set_abi_bin_call (x : option context) (k : Z) (data : option bytes) : option context -> outcome -> Prop :=
  handle_exceptions x (R_bool false) (set_abi_bin_body k data).

(** src/abieos.cpp:158: the quotes in the messages *)
Definition in_quotes (s : bytes) : bytes := str """" ++ s ++ str """".
(** src/abieos.cpp:158, 173, 192, 209, 228 *)
Definition not_loaded (k : Z) : bytes := str "contract " ++ in_quotes (name_to_string k) ++ str " is not loaded".
(** src/abieos.cpp:163-164, 178-179 *)
Definition lacks (k : Z) (what : string) (n : Z) : bytes :=
  str "contract " ++ in_quotes (name_to_string k) ++ str " does not have " ++ str what ++ str " " ++ in_quotes (name_to_string n).

(** src/abieos.cpp:154-167 (actions) and 169-182 (tables) *)
Definition get_type_body (field : abi -> list (Z * bytes)) (kind : string) (k n : Z) : body := fun c c' e =>
  c' = c /\
  e = match cfind k (contracts c) with
      | None => Throws (not_loaded k)
      | Some a =>
          match zfind n (field a) with
          | None => Throws (lacks k kind n)
          | Some t => Value (R_text (Some (cstr t)))
          end
      end.

(** src/abieos.cpp:194, 211, 231: abi::get_type through the context: the entry of the contract has the types which were added. *)
Definition looked_up (k : Z) (a : abi) (t : bytes) (c : context) : context :=
  with_contracts c (update k (abi_looked_up a t) (contracts c)).

(** src/abieos.cpp:184-199 (json_to_bin) and 201-216 (json_to_bin_reorderable) *)
Definition json_body (convert : amap -> bytes -> bytes -> bytes -> res bytes -> Prop) (k : Z) (type json : bytes) : body := fun c c' e =>
  let c := with_error c (str "json parse error") in
  match cfind k (contracts c) with
  | None => c' = with_error c (not_loaded k) /\ e = Value (R_bool false)
  | Some a =>
      match abi_get_type a type with
      | Err x => c' = looked_up k a type c /\ e = Throws (what x)
      | Undef w => c' = c /\ e = Undef_ w
      | Ok (t, a') =>
          let c := with_bin (with_contracts c (update k a' (contracts c))) [] in
          exists q, convert (abi_types a') t json [] q /\
          match q with
          | Ok b => c' = with_bin c b /\ e = Value (R_bool true)
          | Err x => c' = c /\ e = Throws (what x)
          | Undef w => c' = c /\ e = Undef_ w
          end
      end
  end.
(** src/abieos.cpp:218-238. For a contract which is not loaded only a local error text is set. *)
Definition bin_to_json_body (E : float_lib) (k : Z) (type : bytes) (data : option bytes) : body := fun c c' e =>
  let bin := match data with None => [] | Some b => b end in
  let c := with_error c (str "binary decode error") in
  match cfind k (contracts c) with
  | None => c' = c /\ e = Value (R_text None)
  | Some a =>
      match abi_get_type a type with
      | Err x => c' = looked_up k a type c /\ e = Throws (what x)
      | Undef w => c' = c /\ e = Undef_ w
      | Ok (t, a') =>
          let c := with_contracts c (update k a' (contracts c)) in
          exists q, bin_to_json E (abi_types a') t bin q /\
          match q with
          | Ok (text, rest) =>
              c' = with_str c text /\
              e = if beq rest [] then Value (R_text (Some (cstr text))) else Throws (str "Extra data")
          | Err x => c' = c /\ e = Throws (what x)
          | Undef w => c' = c /\ e = Undef_ w
          end
      end
  end.
(** src/abieos.cpp:218-238 *)
Definition bin_to_json_call (E : float_lib) (x : option context) (k : Z) (type data : option bytes) : option context -> outcome -> Prop :=
  handle_exceptions x (R_text None) (bin_to_json_body E k (text_arg type) data).

(** src/abieos.cpp:150, 251: a nested call of the C interface, inside handle_exceptions: it does not throw. *)
Definition nested (f : option context -> option context -> outcome -> Prop) : body := fun c c' e =>
  exists o, f (Some c) (Some c') o /\ e = match o with Returns r => Value r | Undefined w => Undef_ w end.

(** The 15 calls, each with the lines of src/abieos.cpp it models. *)
Definition call (E : float_lib) (x : option context) (f : op) (x' : option context) (o : outcome) : Prop :=
  match f with
  | Get_error =>                                                          (* 63-67 *)
      x' = x /\ o = Returns (R_text (Some match x with None => str "context is null" | Some c => cstr (last_error c) end))
  | Get_bin_size =>                                                       (* 69-73: size_t to int *)
      x' = x /\ o = Returns (R_int match x with None => 0 | Some c => wrap_s 32 (Z.of_nat (List.length (result_bin c))) end)
  | Get_bin_data =>                                                       (* 75-79 *)
      x' = x /\ o = Returns (R_data match x with None => None | Some c => Some (result_bin c) end)
  | Get_bin_hex => handle_exceptions x (R_text None) (fun c c' e =>       (* 81-87 *)
      c' = with_str c (hex (result_bin c)) /\ e = Value (R_text (Some (cstr (hex (result_bin c)))))) x' o
  | String_to_name s =>                                                   (* 89-92 *)
      x' = x /\ o = Returns (R_int (string_to_name (text_arg s)))
  | Name_to_string n => handle_exceptions x (R_text None) (fun c c' e =>  (* 94-99 *)
      c' = with_str c (name_to_string n) /\ e = Value (R_text (Some (cstr (name_to_string n))))) x' o
  | Set_abi k t => handle_exceptions x (R_bool false) (set_abi_body E k (text_arg t)) x' o
  | Set_abi_bin k d => set_abi_bin_call x k d x' o
  | Set_abi_hex k h => handle_exceptions x (R_bool false) (fun c c' e =>  (* 140-152 *)
      match unhex (text_arg h) with
      | None => c' = with_error c (str "expected hex string") /\ e = Value (R_bool false)
      | Some b => nested (fun x => set_abi_bin_call x k (Some b)) c c' e
      end) x' o
  | Get_type_for_action k n => handle_exceptions x (R_text None) (get_type_body action_types "action" k n) x' o
  | Get_type_for_table k n => handle_exceptions x (R_text None) (get_type_body table_types "table" k n) x' o
  | Json_to_bin k t j => handle_exceptions x (R_bool false) (json_body (json_to_bin E) k (text_arg t) (text_arg j)) x' o
  | Json_to_bin_reorderable k t j => handle_exceptions x (R_bool false) (json_body (json_to_bin_reorderable E) k (text_arg t) (text_arg j)) x' o
  | Bin_to_json k t d => bin_to_json_call E x k t d x' o
  | Hex_to_json k t h => handle_exceptions x (R_text None) (fun c c' e => (* 240-253 *)
      match unhex (text_arg h) with
      | None => c' = with_error c (str "expected hex string") /\ e = Value (R_text None)
      | Some b => nested (fun x => bin_to_json_call E x k t (Some b)) c c' e
      end) x' o
  end.
