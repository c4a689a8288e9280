(** * CapiPtr: the C interface with the pointers it takes and gives out (src/abieos.cpp)
    Capi.v has the texts behind the pointers. Here a pointer says which object it points into, so that
    - a pointer returned by one call can be used later, when the object may have changed or gone,
    - the arguments of a call may point into the context itself.
    The bytes of an argument are fetched at the place where the code reads them. *)
From Verif Require Import Base Stream TypedBin Hex Name Json Abi AbiScalar AbiBin AbiJson AbiDef Capi.

(** [g] is the generation of the object: every modifying operation of a std::string or std::vector
    (assignment, clear) ends the life of the characters there, and so of the pointers to them. *)
Inductive pointer :=
| Outside (b : bytes)           (* memory of the caller or a string literal, with the bytes readable there *)
| Error_text (g : nat)          (* context->last_error_buffer.c_str() *)
| Str_text (g : nat)            (* context->result_str.c_str() *)
| Bin_bytes (g : nat)           (* context->result_bin.data() *)
| Action_name (k n : Z)         (* the string for action [n] in the action_types of contract [k] *)
| Table_name (k n : Z).         (* the same for tables *)

(** src/abieos.cpp:12-19. [last]: [Some]: last_error points to that literal, [None]: to last_error_buffer.
    Simplification: one generation number per object and for each change; nodes of a std::map do not move
    (also when the map is moved, 114 and 135), and nothing is ever erased from the maps. *)
Record memory := Mem { last : option bytes; buffer : bytes; gbuf : nat; rstr : bytes; gstr : nat; rbin : bytes; gbin : nat; abis : list (Z * abi) }.
(** src/abieos.cpp:51-59 *)
Definition created : memory := Mem (Some []) [] 0 [] 0 [] 0 [].

(** [context->last_error = "..."], src/abieos.cpp:104, 121, 189, 206, 224 *)
Definition set_last (m : memory) (l : bytes) : memory := Mem (Some l) (buffer m) (gbuf m) (rstr m) (gstr m) (rbin m) (gbin m) (abis m).
(** src/abieos.cpp:26-30 set_error *)
Definition set_error (m : memory) (e : bytes) : memory := Mem None e (S (gbuf m)) (rstr m) (gstr m) (rbin m) (gbin m) (abis m).
(** [context->result_str = ...], src/abieos.cpp:83-84, 96, 233 *)
Definition set_str (m : memory) (s : bytes) : memory := Mem (last m) (buffer m) (gbuf m) s (S (gstr m)) (rbin m) (gbin m) (abis m).
(** [context->result_bin.clear()], [context->result_bin = ...], src/abieos.cpp:195-196, 212-213 *)
Definition set_bin (m : memory) (b : bytes) : memory := Mem (last m) (buffer m) (gbuf m) (rstr m) (gstr m) b (S (gbin m)) (abis m).
(** [context->contracts], src/abieos.cpp:114, 135, 194, 211, 231 *)
Definition set_abis (m : memory) (l : list (Z * abi)) : memory := Mem (last m) (buffer m) (gbuf m) (rstr m) (gstr m) (rbin m) (gbin m) l.

(** The bytes which can be read from a pointer on, [None] when there are none any more. A std::string has a
    NUL at its end, a std::vector<char> has not. *)
Definition contents (m : memory) (p : pointer) : option bytes :=
  match p with
  | Outside b => Some b
  | Error_text g => if Nat.eqb g (gbuf m) then Some (buffer m ++ [0]) else None
  | Str_text g => if Nat.eqb g (gstr m) then Some (rstr m ++ [0]) else None
  | Bin_bytes g => if Nat.eqb g (gbin m) then Some (rbin m) else None
  | Action_name k n => match cfind k (abis m) with Some a => option_map (fun t => t ++ [0]) (zfind n (action_types a)) | None => None end
  | Table_name k n => match cfind k (abis m) with Some a => option_map (fun t => t ++ [0]) (zfind n (table_types a)) | None => None end
  end.
(** Reading a C string: up to a NUL, which has to be there. *)
Definition c_string (m : memory) (p : pointer) : option bytes :=
  match contents m p with Some b => if existsb (Z.eqb 0) b then Some (cstr b) else None | None => None end.
(** A [const char*] argument after fix_null_str (src/abieos.cpp:21-24) *)
Definition text_of (m : memory) (p : option pointer) : option bytes :=
  match p with None => Some [] | Some p => c_string m p end.
(** A [(data, size)] argument. Simplification: all [size] bytes have to be readable, although a conversion
    which fails does not read them all. *)
Definition data_of (m : memory) (p : option pointer) (size : nat) : option (option bytes) :=
  match p with
  | None => Some None
  | Some p => match contents m p with Some b => if Nat.leb size (List.length b) then Some (Some (firstn size b)) else None | None => None end
  end.

(** What a call returns (src/abieos.h). *)
Inductive pret := P_bool (b : bool) | P_text (p : option pointer) | P_data (p : option pointer) | P_int (z : Z).
(** As [outcome] in Capi.v. *)
Inductive poutcome := PReturns (r : pret) | PUndefined (w : string).
(** The calls of src/abieos.h:12-73. *)
Inductive pop :=
| P_get_error | P_get_bin_size | P_get_bin_data | P_get_bin_hex
| P_string_to_name (s : option pointer)
| P_name_to_string (n : Z)
| P_set_abi (contract : Z) (abi : option pointer)
| P_set_abi_bin (contract : Z) (data : option pointer) (size : nat)
| P_set_abi_hex (contract : Z) (hex : option pointer)
| P_get_type_for_action (contract action : Z)
| P_get_type_for_table (contract table : Z)
| P_json_to_bin (contract : Z) (type json : option pointer)
| P_json_to_bin_reorderable (contract : Z) (type json : option pointer)
| P_bin_to_json (contract : Z) (type data : option pointer) (size : nat)
| P_hex_to_json (contract : Z) (type hex : option pointer).

(** As [ended] in Capi.v: src/abieos.cpp:32-49. *)
Inductive pended := PValue (r : pret) | PThrows (t : bytes) | PUndef (w : string).
(** A function passed to handle_exceptions (src/abieos.cpp:32-49). *)
Definition pbody := memory -> memory -> pended -> Prop.
(** Using bytes fetched from a pointer *)
Definition reading {A} (x : option A) (f : A -> pbody) : pbody := fun m m' e =>
  match x with Some b => f b m m' e | None => m' = m /\ e = PUndef "invalid pointer" end.
(** src/abieos.cpp:32-49 *)
Definition phandle (x : option memory) (errval : pret) (f : pbody) (x' : option memory) (o : poutcome) : Prop :=
  match x with
  | None => x' = None /\ o = PReturns errval
  | Some m => exists m' e, f m m' e /\
      match e with
      | PValue r => x' = Some m' /\ o = PReturns r
      | PThrows t => x' = Some (set_error m' (cstr t)) /\ o = PReturns errval
      | PUndef w => x' = Some m' /\ o = PUndefined w
      end
  end.

(** src/abieos.cpp:112-115, 133-136 *)
Definition pload (k : Z) (d : abi_def) : pbody := fun m m' e =>
  match convert d with
  | Ok a => m' = set_abis m (insert k a (abis m)) /\ e = PValue (P_bool true)
  | Err x => m' = m /\ e = PThrows (what x)
  | Undef w => m' = m /\ e = PUndef w
  end.
(** src/abieos.cpp:101-117; the text is copied at 106. *)
Definition pset_abi_body (E : float_lib) (k : Z) (text : option pointer) : pbody := fun m =>
  let m := set_last m (str "abi parse error") in
  reading (text_of m text) (fun text m m' e =>
    match abi_def_from_json E (open_json text) with
    | Err x => m' = m /\ e = PThrows (what x)
    | Undef w => m' = m /\ e = PUndef w
    | Ok (d, _) =>
        if check_abi_version (ad_version d) then pload k d m m' e
        else m' = set_error m unsupported /\ e = PValue (P_bool false)
    end) m.
(** src/abieos.cpp:119-138. The data are read at 126 and 131; nothing is written to before. *)
Definition pset_abi_bin_body (k : Z) (data : option pointer) (size : nat) : pbody := fun m =>
  let m := set_last m (str "abi parse error") in
  reading (data_of m data size) (fun data m m' e =>
    match data with
    | None | Some [] => m' = set_error m (str "no data") /\ e = PValue (P_bool false)
    | Some b =>
        match from_bin no_env 0 TString b with
        | Err x => m' = m /\ e = PThrows (what x)
        | Undef w => m' = m /\ e = PUndef w
        | Ok (v, _) =>
            match v with
            | VStr version =>
                if check_abi_version version then
                  match abi_def_from_bin b with
                  | Err x => m' = m /\ e = PThrows (what x)
                  | Undef w => m' = m /\ e = PUndef w
                  | Ok (d, _) => pload k d m m' e
                  end
                else m' = set_error m unsupported /\ e = PValue (P_bool false)
            | _ => m' = m /\ e = PUndef "not a string"
            end
        end
    end) m.
(** src/abieos.cpp:119-138 *)
Definition pset_abi_bin_call (x : option memory) (k : Z) (data : option pointer) (size : nat) : option memory -> poutcome -> Prop :=
  phandle x (P_bool false) (pset_abi_bin_body k data size).
(** src/abieos.cpp:154-182 *)
Definition pget_type_body (field : abi -> list (Z * bytes)) (place : Z -> Z -> pointer) (kind : string) (k n : Z) : pbody := fun m m' e =>
  m' = m /\
  e = match cfind k (abis m) with
      | None => PThrows (not_loaded k)
      | Some a => match zfind n (field a) with None => PThrows (lacks k kind n) | Some _ => PValue (P_text (Some (place k n))) end
      end.
(** src/abieos.cpp:184-216. [type] is read at 194 (211), before result_bin is cleared, [json] at 196 (213), after that. *)
Definition pjson_body (convert : amap -> bytes -> bytes -> bytes -> res bytes -> Prop) (k : Z) (type json : option pointer) : pbody := fun m m' e =>
  let m := set_last m (str "json parse error") in
  match cfind k (abis m) with
  | None => m' = set_error m (not_loaded k) /\ e = PValue (P_bool false)
  | Some a =>
      reading (text_of m type) (fun type m m' e =>
        match abi_get_type a type with
        | Err x => m' = set_abis m (update k (abi_looked_up a type) (abis m)) /\ e = PThrows (what x)
        | Undef w => m' = m /\ e = PUndef w
        | Ok (t, a') =>
            let m := set_bin (set_abis m (update k a' (abis m))) [] in
            reading (text_of m json) (fun json m m' e =>
              exists q, convert (abi_types a') t json [] q /\
              match q with
              | Ok b => m' = set_bin m b /\ e = PValue (P_bool true)
              | Err x => m' = m /\ e = PThrows (what x)
              | Undef w => m' = m /\ e = PUndef w
              end) m m' e
        end) m m' e
  end.
(** src/abieos.cpp:218-238. Both arguments are read (231, 233) before result_str is assigned. *)
Definition pbin_to_json_body (E : float_lib) (k : Z) (type data : option pointer) (size : nat) : pbody := fun m m' e =>
  let m := set_last m (str "binary decode error") in
  match cfind k (abis m) with
  | None => m' = m /\ e = PValue (P_text None)
  | Some a =>
      reading (text_of m type) (fun type m m' e =>
        match abi_get_type a type with
        | Err x => m' = set_abis m (update k (abi_looked_up a type) (abis m)) /\ e = PThrows (what x)
        | Undef w => m' = m /\ e = PUndef w
        | Ok (t, a') =>
            let m := set_abis m (update k a' (abis m)) in
            reading (data_of m data size) (fun data m m' e =>
              exists q, bin_to_json E (abi_types a') t match data with None => [] | Some b => b end q /\
              match q with
              | Ok (text, rest) =>
                  m' = set_str m text /\
                  e = if beq rest [] then PValue (P_text (Some (Str_text (gstr (set_str m text))))) else PThrows (str "Extra data")
              | Err x => m' = m /\ e = PThrows (what x)
              | Undef w => m' = m /\ e = PUndef w
              end) m m' e
        end) m m' e
  end.
(** src/abieos.cpp:218-238 *)
Definition pbin_to_json_call (E : float_lib) (x : option memory) (k : Z) (type data : option pointer) (size : nat) : option memory -> poutcome -> Prop :=
  phandle x (P_text None) (pbin_to_json_body E k type data size).
(** src/abieos.cpp:150, 251: a call of the C interface inside handle_exceptions. *)
Definition pnested (f : option memory -> option memory -> poutcome -> Prop) : pbody := fun m m' e =>
  exists o, f (Some m) (Some m') o /\ e = match o with PReturns r => PValue r | PUndefined w => PUndef w end.

(** src/abieos.cpp:61-253 *)
Definition pcall (E : float_lib) (x : option memory) (f : pop) (x' : option memory) (o : poutcome) : Prop :=
  match f with
  | P_get_error =>                                                        (* 63-67 *)
      x' = x /\ o = PReturns (P_text (Some match x with
                                           | None => Outside (str "context is null" ++ [0])
                                           | Some m => match last m with Some l => Outside (l ++ [0]) | None => Error_text (gbuf m) end
                                           end))
  | P_get_bin_size =>                                                     (* 69-73 *)
      x' = x /\ o = PReturns (P_int match x with None => 0 | Some m => wrap_s 32 (Z.of_nat (List.length (rbin m))) end)
  | P_get_bin_data =>                                                     (* 75-79 *)
      x' = x /\ o = PReturns (P_data match x with None => None | Some m => Some (Bin_bytes (gbin m)) end)
  | P_get_bin_hex => phandle x (P_text None) (fun m m' e =>               (* 81-87 *)
      m' = set_str m (hex (rbin m)) /\ e = PValue (P_text (Some (Str_text (gstr m'))))) x' o
  | P_string_to_name s =>                                                 (* 89-92 *)
      x' = x /\ o = match text_of match x with Some m => m | None => created end s with
                    | Some s => PReturns (P_int (string_to_name s))
                    | None => PUndefined "invalid pointer"
                    end
  | P_name_to_string n => phandle x (P_text None) (fun m m' e =>          (* 94-99 *)
      m' = set_str m (name_to_string n) /\ e = PValue (P_text (Some (Str_text (gstr m'))))) x' o
  | P_set_abi k t => phandle x (P_bool false) (pset_abi_body E k t) x' o
  | P_set_abi_bin k d n => pset_abi_bin_call x k d n x' o
  | P_set_abi_hex k h => phandle x (P_bool false) (fun m => reading (text_of m h) (fun h m m' e => (* 140-152 *)
      match unhex h with
      | None => m' = set_error m (str "expected hex string") /\ e = PValue (P_bool false)
      | Some b => pnested (fun x => pset_abi_bin_call x k (Some (Outside b)) (List.length b)) m m' e
      end) m) x' o
  | P_get_type_for_action k n => phandle x (P_text None) (pget_type_body action_types Action_name "action" k n) x' o
  | P_get_type_for_table k n => phandle x (P_text None) (pget_type_body table_types Table_name "table" k n) x' o
  | P_json_to_bin k t j => phandle x (P_bool false) (pjson_body (json_to_bin E) k t j) x' o
  | P_json_to_bin_reorderable k t j => phandle x (P_bool false) (pjson_body (json_to_bin_reorderable E) k t j) x' o
  | P_bin_to_json k t d n => pbin_to_json_call E x k t d n x' o
  | P_hex_to_json k t h => phandle x (P_text None) (fun m => reading (text_of m h) (fun h m m' e => (* 240-253 *)
      match unhex h with
      | None => m' = set_error m (str "expected hex string") /\ e = PValue (P_text None)
      | Some b => pnested (fun x => pbin_to_json_call E x k t (Some (Outside b)) (List.length b)) m m' e
      end) m) x' o
  end.
