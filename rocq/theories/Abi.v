(** * Abi: loading ABI definitions
    include/eosio/abi.hpp (data types) and src/abi.cpp (convert, get_type) *)
From Verif Require Import Base.

(** ** ABI definitions as read from JSON or binary: include/eosio/abi.hpp:64-139 *)
Record type_def := TypeDef { new_type_name : bytes; td_type : bytes }.            (* 66-71 *)
Record field_def := FieldDef { fd_name : bytes; fd_type : bytes }.                (* 73-78 *)
Record struct_def := StructDef { sd_name : bytes; sd_base : bytes; sd_fields : list field_def }. (* 80-86 *)
Record action_def := ActionDef { ac_name : Z; ac_type : bytes; ac_ricardian : bytes }.  (* 88-94 *)
Record table_def := TableDef { tb_name : Z; tb_index_type : bytes; tb_key_names : list bytes;
                               tb_key_types : list bytes; tb_type : bytes }.      (* 96-104 *)
Record clause_pair := ClausePair { cl_id : bytes; cl_body : bytes }.              (* 106-111 *)
Record error_message := ErrorMessage { em_code : Z; em_msg : bytes }.             (* 113-118 *)
Record variant_def := VariantDef { vd_name : bytes; vd_types : list bytes }.      (* 120-125 *)
Record abi_def := AbiDef {                                                        (* 127-140 *)
  ad_version : bytes;
  ad_types : list type_def;
  ad_structs : list struct_def;
  ad_actions : list action_def;
  ad_tables : list table_def;
  ad_clauses : list clause_pair;
  ad_errors : list error_message;
  ad_extensions : list (Z * bytes);
  ad_variants : list variant_def        (* might_not_exist<...>::value *)
}.

(** ** Loaded types: include/eosio/abi.hpp:142-196

    The built in types, src/abi.cpp:40-78 ([for_each_abi_type]) in order; the
    serializer pointer [ser] of a built in type is determined by it. *)
Inductive builtin : Set :=
| B_bool | B_int8 | B_uint8 | B_int16 | B_uint16 | B_int32 | B_uint32 | B_int64 | B_uint64
| B_int128 | B_uint128 | B_varuint32 | B_varint32 | B_float32 | B_float64 | B_float128
| B_time_point | B_time_point_sec | B_block_timestamp | B_name | B_bytes | B_string
| B_checksum160 | B_checksum256 | B_checksum512 | B_public_key | B_private_key | B_signature
| B_symbol | B_symbol_code | B_asset.

(** get_type_name: include/eosio/types.hpp:12-31, crypto.hpp:108-110, and the
    EOSIO_REFLECT macro (include/eosio/reflection.hpp:37-38), which returns the
    struct's name, for varuint32, varint32 (varint.hpp:205,425), float128
    (float.hpp:31), time_point, time_point_sec, block_timestamp_type
    (time.hpp:87,167,250), name (name.hpp:150), bytes (bytes.hpp:14), checksum*
    (fixed_bytes.hpp:209-211), symbol, symbol_code (symbol.hpp:167,245), asset
    (asset.hpp:334) *)
Definition builtin_string (b : builtin) : string :=
  match b with
      | B_bool => "bool" | B_int8 => "int8" | B_uint8 => "uint8" | B_int16 => "int16"
      | B_uint16 => "uint16" | B_int32 => "int32" | B_uint32 => "uint32" | B_int64 => "int64"
      | B_uint64 => "uint64" | B_int128 => "int128" | B_uint128 => "uint128"
      | B_varuint32 => "varuint32" | B_varint32 => "varint32" | B_float32 => "float32"
      | B_float64 => "float64" | B_float128 => "float128" | B_time_point => "time_point"
      | B_time_point_sec => "time_point_sec" | B_block_timestamp => "block_timestamp_type"
      | B_name => "name" | B_bytes => "bytes" | B_string => "string"
      | B_checksum160 => "checksum160" | B_checksum256 => "checksum256"
      | B_checksum512 => "checksum512" | B_public_key => "public_key"
      | B_private_key => "private_key" | B_signature => "signature" | B_symbol => "symbol"
      | B_symbol_code => "symbol_code" | B_asset => "asset"
      end%string.
(** get_type_name as a std::string: src/abi.cpp:192 *)
Definition builtin_name (b : builtin) : bytes := str (builtin_string b).

(** src/abi.cpp:45-75: the calls of [f], in this order *)
Definition builtins : list builtin :=
  [B_bool; B_int8; B_uint8; B_int16; B_uint16; B_int32; B_uint32; B_int64; B_uint64; B_int128;
   B_uint128; B_varuint32; B_varint32; B_float32; B_float64; B_float128; B_time_point;
   B_time_point_sec; B_block_timestamp; B_name; B_bytes; B_string; B_checksum160; B_checksum256;
   B_checksum512; B_public_key; B_private_key; B_signature; B_symbol; B_symbol_code; B_asset].

(** include/eosio/abi.hpp:149-166 [abi_type::_data]. A pointer [abi_type*] to a
    map node is modelled by the node's key (std::map nodes are stable and every
    node's key is its [name] member); a pointer into the abi_def by the value
    pointed to (the abi_def outlives the conversion and is const).
    Simplification: [struct_::base] is omitted, [convert] never sets it. *)
Inductive adata : Set :=
| ABuiltin (b : builtin)
| AAliasDef (t : bytes)
| AStructDef (s : struct_def)
| AVariantDef (v : variant_def)
| AAlias (p : bytes)
| AOptional (p : bytes)
| AExtension (p : bytes)
| AArray (p : bytes)
| AStruct (fields : list (bytes * bytes))
| AVariant (fields : list (bytes * bytes)).

(** include/eosio/abi.hpp:200 std::map<std::string, abi_type>: an association list in key order. *)
Definition amap := list (bytes * adata).

(** std::map::find, as used in src/abi.cpp:82 *)
Fixpoint afind (k : bytes) (m : amap) : option adata :=
  match m with
  | [] => None
  | (k', d) :: m' => if beq k k' then Some d else afind k m'
  end.
(** Insertion of a key which is not there, at its place (std::map, used by src/abi.cpp:88). *)
Fixpoint ainsert (k : bytes) (d : adata) (m : amap) : amap :=
  match m with
  | [] => [(k, d)]
  | (k', d') :: m' => if lex_ltb k k' then (k, d) :: m else (k', d') :: ainsert k d m'
  end.
(** std::map::try_emplace (src/abi.cpp:88, 94, 100, 193, 196, 205, 212, 219): no effect if the key exists; tells if it inserted. *)
Definition try_emplace (k : bytes) (d : adata) (m : amap) : amap * bool :=
  match afind k m with
  | Some _ => (m, false)
  | None => (ainsert k d m, true)
  end.
(** [it->second._data = d], src/abi.cpp:111, 127, 168 *)
Fixpoint aset (k : bytes) (d : adata) (m : amap) : amap :=
  match m with
  | [] => []
  | (k', d') :: m' => if beq k k' then (k', d) :: m' else (k', d') :: aset k d m'
  end.
(** [p->_data] for a pointer into the map, src/abi.cpp:86, 92, 98, 125, 129, 156 *)
Definition deref (p : bytes) (m : amap) : res adata :=
  match afind p m with Some d => Ok d | None => Undef "dangling pointer" end.

(** src/abi.cpp:8-11 ends_with *)
Definition ends_with (s suffix : bytes) : bool :=
  (Z.of_nat (List.length suffix) <=? Z.of_nat (List.length s))
  && beq (skipn (List.length s - List.length suffix) s) suffix.
(** [name.substr(0, name.size() - n)], src/abi.cpp:85, 91, 97 *)
Definition drop_last (n : nat) (s : bytes) : bytes := firstn (List.length s - n) s.

(** src/abi.cpp:34-37 [holds_any_alternative] at the alternatives of :86, :92 *)
Definition is_optional_array_extension (d : adata) : bool :=
  match d with AOptional _ | AArray _ | AExtension _ => true | _ => false end.
(** src/abi.cpp:98, :156 [std::holds_alternative<abi_type::extension>] *)
Definition is_extension (d : adata) : bool :=
  match d with AExtension _ => true | _ => false end.

(** src/abi.cpp:78-116 get_type and 154-159 resolve(alias_def). The C++ argument
    [depth] is 32 - d. Returns the pointer and the updated map. *)
Fixpoint get_type (d : nat) (m : amap) (name : bytes) : res (bytes * amap) :=
  match d with
  | O => Err E_recursion_limit_reached
  | S d' =>
    match afind name m with
    | None =>
      if ends_with name (str "?") then
        let* (base, m) := get_type d' m (drop_last 1 name) in
        let* x := deref base m in
        let* _ := check (negb (is_optional_array_extension x)) E_invalid_nesting in
        Ok (name, fst (try_emplace name (AOptional base) m))
      else if ends_with name (str "[]") then
        let* (element, m) := get_type d' m (drop_last 2 name) in
        let* x := deref element m in
        let* _ := check (negb (is_optional_array_extension x)) E_invalid_nesting in
        Ok (name, fst (try_emplace name (AArray element) m))
      else if ends_with name (str "$") then
        let* (base, m) := get_type d' m (drop_last 1 name) in
        let* x := deref base m in
        let* _ := check (negb (is_extension x)) E_invalid_nesting in
        Ok (name, fst (try_emplace name (AExtension base) m))
      else Err E_unknown_type
    | Some (AAlias p) => Ok (p, m)
    | Some (AAliasDef t) =>
      let* (p, m) := get_type d' m t in
      let* x := deref p m in
      let* _ := check (negb (is_extension x)) E_extension_typedef in
      Ok (p, aset name (AAlias p) m)
    | Some _ => Ok (name, m)
    end
  end.

(** The same code (src/abi.cpp:78-116, 154-159): the table which a call leaves behind, also when it throws (the inner
    calls have already added their entries). *)
Fixpoint get_type_table (d : nat) (m : amap) (name : bytes) : amap :=
  match get_type d m name with
  | Ok (_, m') => m'
  | _ =>
    match d with
    | O => m
    | S d' =>
      match afind name m with
      | None =>
        if ends_with name (str "?") then get_type_table d' m (drop_last 1 name)
        else if ends_with name (str "[]") then get_type_table d' m (drop_last 2 name)
        else if ends_with name (str "$") then get_type_table d' m (drop_last 1 name)
        else m
      | Some (AAliasDef t) => get_type_table d' m t
      | Some _ => m
      end
    end
  end.

(** The loops of src/abi.cpp:135-138 and 147-150: [get_type] of each member. *)
Fixpoint get_types (d : nat) (l : list (bytes * bytes)) (m : amap) : res (list (bytes * bytes) * amap) :=
  match l with
  | [] => Ok ([], m)
  | (n, t) :: l' =>
    let* (p, m) := get_type d m t in
    let* (r, m) := get_types d l' m in
    Ok ((n, p) :: r, m)
  end.
(** src/abi.cpp:135-138: name and type of each field *)
Definition field_pairs (l : list field_def) : list (bytes * bytes) :=
  map (fun f => (fd_name f, fd_type f)) l.
(** src/abi.cpp:147-150: a member is called as its type is written *)
Definition variant_pairs (l : list bytes) : list (bytes * bytes) := map (fun t => (t, t)) l.

(** src/abi.cpp:118-140 resolve(struct_def); [d] is 32 - depth. *)
Fixpoint resolve_struct (d : nat) (m : amap) (s : struct_def) : res (list (bytes * bytes) * amap) :=
  match d with
  | O => Err E_recursion_limit_reached
  | S d' =>
    let* (base_fields, m) :=
      match sd_base s with
      | [] => Ok ([], m)
      | _ =>
        let* (base, m) := get_type d' m (sd_base s) in
        let* x := deref base m in
        let* m := match x with
                  | AStructDef bd => let* (fs, m) := resolve_struct d' m bd in
                                     Ok (aset base (AStruct fs) m)
                  | _ => Ok m
                  end in
        let* x := deref base m in
        match x with
        | AStruct fs => Ok (fs, m)
        | _ => Err E_base_not_a_struct
        end
      end in
    let* (own, m) := get_types d' (field_pairs (sd_fields s)) m in
    Ok (base_fields ++ own, m)
  end.

(** src/abi.cpp:143-152 resolve(variant_def) *)
Definition resolve_variant (d : nat) (m : amap) (v : variant_def) : res (list (bytes * bytes) * amap) :=
  match d with
  | O => Err E_recursion_limit_reached
  | S d' => get_types d' (variant_pairs (vd_types v)) m
  end.

(** src/abi.cpp:161-177 fill *)
Definition fill (d : nat) (m : amap) (k : bytes) : res amap :=
  let* x := deref k m in
  match x with
  | AAliasDef t =>
    match d with
    | O => Err E_recursion_limit_reached
    | S d' =>
      let* (p, m) := get_type d' m t in
      let* y := deref p m in
      let* _ := check (negb (is_extension y)) E_extension_typedef in
      Ok (aset k (AAlias p) m)
    end
  | AStructDef s => let* (fs, m) := resolve_struct d m s in Ok (aset k (AStruct fs) m)
  | AVariantDef v => let* (fs, m) := resolve_variant d m v in Ok (aset k (AVariant fs) m)
  | _ => Ok m
  end.

(** ** convert(const abi_def&, abi&): src/abi.cpp:186-226, into a fresh abi.
    :191-194: the built-in types *)
Fixpoint emplace_builtins (l : list builtin) (m : amap) : amap :=
  match l with
  | [] => m
  | b :: l' => emplace_builtins l' (fst (try_emplace (builtin_name b) (ABuiltin b) m))
  end.
(** src/abi.cpp:191-200 *)
Definition initial_types : amap :=
  fst (try_emplace (str "extended_asset")
         (AStruct [(str "quantity", str "asset"); (str "contract", str "name")])
         (emplace_builtins builtins [])).

(** The three declaration loops, src/abi.cpp:202-222. *)
Fixpoint declare (l : list (bytes * adata)) (m : amap) : res amap :=
  match l with
  | [] => Ok m
  | (k, d) :: l' =>
    let* _ := check (negb (beq k [])) E_missing_name in
    let (m', inserted) := try_emplace k d m in
    let* _ := check inserted E_redefined_type in
    declare l' m'
  end.
(** src/abi.cpp:202-205 *)
Definition type_decl (t : type_def) : bytes * adata := (new_type_name t, AAliasDef (td_type t)).
(** src/abi.cpp:209-212 *)
Definition struct_decl (s : struct_def) : bytes * adata := (sd_name s, AStructDef s).
(** src/abi.cpp:216-219 *)
Definition variant_decl (v : variant_def) : bytes * adata := (vd_name v, AVariantDef v).
(** src/abi.cpp:202-222: the three loops in this order *)
Definition declarations (a : abi_def) : list (bytes * adata) :=
  map type_decl (ad_types a) ++ map struct_decl (ad_structs a) ++ map variant_decl (ad_variants a).

(** src/abi.cpp:223-225. The C++ loop iterates over the map while [fill] inserts
    into it; the entries inserted meanwhile are optionals, arrays and
    extensions, on which [fill] has no effect, so it is modelled as a loop over
    the keys present at its start. *)
Fixpoint fill_all (ks : list bytes) (m : amap) : res amap :=
  match ks with
  | [] => Ok m
  | k :: ks' => let* m := fill 32 m k in fill_all ks' m
  end.

(** std::map<name, std::string>::operator[] =, src/abi.cpp:188, 190 *)
Fixpoint zset (k : Z) (v : bytes) (m : list (Z * bytes)) : list (Z * bytes) :=
  match m with
  | [] => [(k, v)]
  | (k', v') :: m' => if k <? k' then (k, v) :: m
                      else if k =? k' then (k, v) :: m'
                      else (k', v') :: zset k v m'
  end.
(** std::map<name, std::string>::find, src/abieos.cpp:161, 176 *)
Fixpoint zfind (k : Z) (m : list (Z * bytes)) : option bytes :=
  match m with
  | [] => None
  | (k', v) :: m' => if k =? k' then Some v else zfind k m'
  end.

(** include/eosio/abi.hpp:197-209 struct abi *)
Record abi := Abi { action_types : list (Z * bytes); table_types : list (Z * bytes); abi_types : amap }.

(** src/abi.cpp:186-226 *)
Definition convert (a : abi_def) : res abi :=
  let actions := fold_left (fun m x => zset (ac_name x) (ac_type x) m) (ad_actions a) [] in
  let tables := fold_left (fun m x => zset (tb_name x) (tb_type x) m) (ad_tables a) [] in
  let* m := declare (declarations a) initial_types in
  let* m := fill_all (map fst m) m in
  Ok (Abi actions tables m).

(** src/abi.cpp:182-184 abi::get_type *)
Definition abi_get_type (a : abi) (name : bytes) : res (bytes * abi) :=
  let* (p, m) := get_type 32 (abi_types a) name in
  Ok (p, Abi (action_types a) (table_types a) m).
(** src/abi.cpp:182-184: the abi after abi::get_type was called, whether or not it threw. *)
Definition abi_looked_up (c : abi) (name : bytes) : abi :=
  Abi (action_types c) (table_types c) (get_type_table 32 (abi_types c) name).

(** ** convert(const abi&, abi_def&): src/abi.cpp:228-271; :267 *)
Definition empty_def (version : bytes) : abi_def := AbiDef version [] [] [] [] [] [] [] [].
(** src/abi.cpp:239 [def.types.push_back] *)
Definition add_types (d : abi_def) x := AbiDef (ad_version d) (ad_types d ++ x) (ad_structs d)
  (ad_actions d) (ad_tables d) (ad_clauses d) (ad_errors d) (ad_extensions d) (ad_variants d).
(** src/abi.cpp:255 [def.structs.push_back] *)
Definition add_structs (d : abi_def) x := AbiDef (ad_version d) (ad_types d) (ad_structs d ++ x)
  (ad_actions d) (ad_tables d) (ad_clauses d) (ad_errors d) (ad_extensions d) (ad_variants d).
(** src/abi.cpp:263 [def.variants.value.push_back] *)
Definition add_variants (d : abi_def) x := AbiDef (ad_version d) (ad_types d) (ad_structs d)
  (ad_actions d) (ad_tables d) (ad_clauses d) (ad_errors d) (ad_extensions d) (ad_variants d ++ x).

(** src/abi.cpp:228-264, the overloads of [to_abi_def]. [struct_.base] is always null (neither [resolve] nor [add_type] sets it), so :247-250 never runs. *)
Definition to_abi_def (e : bytes * adata) (def : abi_def) : res abi_def :=
  let (name, d) := e in
  match d with
  | ABuiltin _ | AOptional _ | AArray _ | AExtension _ => Ok def
  | AAliasDef _ | AStructDef _ | AVariantDef _ => Err E_bad_abi
  | AAlias p => Ok (add_types def [TypeDef name p])
  | AStruct fs =>
      if beq name (str "extended_asset") then Ok def
      else Ok (add_structs def [StructDef name [] (map (fun f => FieldDef (fst f) (snd f)) fs)])
  | AVariant fs => Ok (add_variants def [VariantDef name (map snd fs)])
  end.
(** src/abi.cpp:268-270 *)
Fixpoint to_abi_defs (l : amap) (def : abi_def) : res abi_def :=
  match l with
  | [] => Ok def
  | e :: l' => let* def := to_abi_def e def in to_abi_defs l' def
  end.
(** src/abi.cpp:266-271 *)
Definition convert_back (a : abi) : res abi_def :=
  to_abi_defs (abi_types a) (empty_def (str "eosio::abi/1.0")).
