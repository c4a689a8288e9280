(** * AbiDef: reading and writing ABI definitions (abi_def of include/eosio/abi.hpp)
    The templates of from_bin.hpp, to_bin.hpp and from_json.hpp at the type abi_def. *)
From Verif Require Import Base Stream TypedBin Json Abi AbiScalar TypedJson.

(** ** The C++ types: include/eosio/abi.hpp:64-140 with their EOSIO_REFLECT member names *)
Definition string_jty : jty := JScalar B_string.
(** include/eosio/abi.hpp:66-71 *)
Definition type_def_jty : jty :=
  JStruct (str "type_def") [(str "new_type_name", string_jty); (str "type", string_jty)].
(** include/eosio/abi.hpp:73-78 *)
Definition field_def_jty : jty :=
  JStruct (str "field_def") [(str "name", string_jty); (str "type", string_jty)].
(** include/eosio/abi.hpp:80-86 *)
Definition struct_def_jty : jty :=
  JStruct (str "struct_def") [(str "name", string_jty); (str "base", string_jty); (str "fields", JVec field_def_jty)].
(** include/eosio/abi.hpp:88-94 *)
Definition action_def_jty : jty :=
  JStruct (str "action_def") [(str "name", JScalar B_name); (str "type", string_jty); (str "ricardian_contract", string_jty)].
(** include/eosio/abi.hpp:96-104 *)
Definition table_def_jty : jty :=
  JStruct (str "table_def") [(str "name", JScalar B_name); (str "index_type", string_jty); (str "key_names", JVec string_jty);
    (str "key_types", JVec string_jty); (str "type", string_jty)].
(** include/eosio/abi.hpp:106-111 *)
Definition clause_pair_jty : jty :=
  JStruct (str "clause_pair") [(str "id", string_jty); (str "body", string_jty)].
(** include/eosio/abi.hpp:113-118 *)
Definition error_message_jty : jty :=
  JStruct (str "error_message") [(str "error_code", JScalar B_uint64); (str "error_msg", string_jty)].
(** include/eosio/abi.hpp:120-125 *)
Definition variant_def_jty : jty :=
  JStruct (str "variant_def") [(str "name", string_jty); (str "types", JVec string_jty)].
(** include/eosio/abi.hpp:64 abi_extensions_type: std::vector<std::pair<uint16_t, std::vector<char>>>; char is signed. *)
Definition extensions_jty : jty := JVec (JPair (JScalar B_uint16) (JVec (JScalar B_int8))).
(** include/eosio/abi.hpp:127-140 *)
Definition abi_def_jty : jty :=
  JStruct (str "abi_def")
    [(str "version", string_jty); (str "types", JVec type_def_jty); (str "structs", JVec struct_def_jty);
     (str "actions", JVec action_def_jty); (str "tables", JVec table_def_jty); (str "ricardian_clauses", JVec clause_pair_jty);
     (str "error_messages", JVec error_message_jty); (str "abi_extensions", extensions_jty);
     (str "variants", JMaybe (JVec variant_def_jty))].

(** ** The objects as values of these types, and back *)
Definition strs (l : list bytes) : val := VList (map VStr l).
(** include/eosio/abi.hpp:66-69: the members in order. *)
Definition val_of_type (t : type_def) : val := VList [VStr (new_type_name t); VStr (td_type t)].
(** include/eosio/abi.hpp:73-76: the members in order. *)
Definition val_of_field (f : field_def) : val := VList [VStr (fd_name f); VStr (fd_type f)].
(** include/eosio/abi.hpp:80-84: the members in order. *)
Definition val_of_struct (s : struct_def) : val := VList [VStr (sd_name s); VStr (sd_base s); VList (map val_of_field (sd_fields s))].
(** include/eosio/abi.hpp:88-92: the members in order. *)
Definition val_of_action (a : action_def) : val := VList [VInt (ac_name a); VStr (ac_type a); VStr (ac_ricardian a)].
(** include/eosio/abi.hpp:96-102: the members in order. *)
Definition val_of_table (t : table_def) : val :=
  VList [VInt (tb_name t); VStr (tb_index_type t); strs (tb_key_names t); strs (tb_key_types t); VStr (tb_type t)].
(** include/eosio/abi.hpp:106-109: the members in order. *)
Definition val_of_clause (c : clause_pair) : val := VList [VStr (cl_id c); VStr (cl_body c)].
(** include/eosio/abi.hpp:113-116: the members in order. *)
Definition val_of_error (e : error_message) : val := VList [VInt (em_code e); VStr (em_msg e)].
(** include/eosio/abi.hpp:120-123: the members in order. *)
Definition val_of_variant (v : variant_def) : val := VList [VStr (vd_name v); strs (vd_types v)].
(** include/eosio/abi.hpp:64: the members in order. *)
Definition val_of_extension (e : Z * bytes) : val := VList [VInt (fst e); VList (map (fun b => VInt (to_signed 8 b)) (snd e))].
(** include/eosio/abi.hpp:127-137: the members in order. *)
Definition val_of_abi (d : abi_def) : val :=
  VList [VStr (ad_version d); VList (map val_of_type (ad_types d)); VList (map val_of_struct (ad_structs d));
    VList (map val_of_action (ad_actions d)); VList (map val_of_table (ad_tables d)); VList (map val_of_clause (ad_clauses d));
    VList (map val_of_error (ad_errors d)); VList (map val_of_extension (ad_extensions d)); VList (map val_of_variant (ad_variants d))].

(** Representation: a std::vector of include/eosio/abi.hpp:64, 83, 99-100, 122, 129-136. *)
Fixpoint oall {A B} (f : A -> option B) (l : list A) : option (list B) :=
  match l with
  | [] => Some []
  | x :: l' => match f x, oall f l' with Some y, Some m => Some (y :: m) | _, _ => None end
  end.
(** Representation: a std::vector of include/eosio/abi.hpp:64, 83, 99-100, 122, 129-136. *)
Definition list_of {B} (f : val -> option B) (v : val) : option (list B) := match v with VList l => oall f l | _ => None end.
(** Representation: a std::string member of include/eosio/abi.hpp:66-137. *)
Definition str_of (v : val) : option bytes := match v with VStr s => Some s | _ => None end.
(** include/eosio/abi.hpp:66-69: the object with these members. *)
Definition type_of (v : val) : option type_def := match v with VList [VStr a; VStr b] => Some (TypeDef a b) | _ => None end.
(** include/eosio/abi.hpp:73-76: the object with these members. *)
Definition field_of (v : val) : option field_def := match v with VList [VStr a; VStr b] => Some (FieldDef a b) | _ => None end.
(** include/eosio/abi.hpp:80-84: the object with these members. *)
Definition struct_of (v : val) : option struct_def :=
  match v with
  | VList [VStr a; VStr b; l] => match list_of field_of l with Some fs => Some (StructDef a b fs) | None => None end
  | _ => None
  end.
(** include/eosio/abi.hpp:88-92: the object with these members. *)
Definition action_of (v : val) : option action_def :=
  match v with VList [VInt a; VStr b; VStr c] => Some (ActionDef a b c) | _ => None end.
(** include/eosio/abi.hpp:96-102: the object with these members. *)
Definition table_of (v : val) : option table_def :=
  match v with
  | VList [VInt a; VStr b; l; m; VStr c] =>
      match list_of str_of l, list_of str_of m with Some l, Some m => Some (TableDef a b l m c) | _, _ => None end
  | _ => None
  end.
(** include/eosio/abi.hpp:106-109: the object with these members. *)
Definition clause_of (v : val) : option clause_pair := match v with VList [VStr a; VStr b] => Some (ClausePair a b) | _ => None end.
(** include/eosio/abi.hpp:113-116: the object with these members. *)
Definition error_of (v : val) : option error_message := match v with VList [VInt a; VStr b] => Some (ErrorMessage a b) | _ => None end.
(** include/eosio/abi.hpp:120-123: the object with these members. *)
Definition variant_of (v : val) : option variant_def :=
  match v with
  | VList [VStr a; l] => match list_of str_of l with Some l => Some (VariantDef a l) | None => None end
  | _ => None
  end.
(** Representation: a char of include/eosio/abi.hpp:64. *)
Definition char_of (v : val) : option Z := match v with VInt z => Some (to_unsigned 8 z) | _ => None end.
(** include/eosio/abi.hpp:64: the object with these members. *)
Definition extension_of (v : val) : option (Z * bytes) :=
  match v with
  | VList [VInt t; l] => match list_of char_of l with Some b => Some (t, b) | None => None end
  | _ => None
  end.
(** include/eosio/abi.hpp:127-137: the object with these members. *)
Definition abi_of_val (v : val) : option abi_def :=
  match v with
  | VList [VStr ver; ts; ss; acs; tbs; cls; ers; exs; vs] =>
      match list_of type_of ts, list_of struct_of ss, list_of action_of acs, list_of table_of tbs, list_of clause_of cls,
            list_of error_of ers, list_of extension_of exs, list_of variant_of vs with
      | Some ts, Some ss, Some acs, Some tbs, Some cls, Some ers, Some exs, Some vs => Some (AbiDef ver ts ss acs tbs cls ers exs vs)
      | _, _, _, _, _, _, _, _ => None
      end
  | _ => None
  end.

(** ** from_bin, to_bin and from_json at abi_def
    (no type of the definition is recursive) *)
Definition no_env (n : nat) : ty := TTuple [].
(** include/eosio/from_bin.hpp:236-250 at include/eosio/abi.hpp:127-140 *)
Definition abi_def_from_bin (s : istream) : res (abi_def * istream) :=
  let* (v, s) := from_bin no_env 0 (erase abi_def_jty) s in
  match abi_of_val v with Some d => Ok (d, s) | None => ill end.
(** include/eosio/to_bin.hpp:160-169 at include/eosio/abi.hpp:127-140 *)
Definition abi_def_to_bin (d : abi_def) : res bytes := convert_to_bin no_env 0 (erase abi_def_jty) (val_of_abi d) [].
(** include/eosio/from_json.hpp:640-653 at include/eosio/abi.hpp:127-140: [abi_def def{}; from_json(def, stream)] *)
Definition abi_def_from_json (E : float_lib) (s : jstream) : res (abi_def * jstream) :=
  let* (v, s) := from_json E abi_def_jty (jdefault abi_def_jty) s in
  match abi_of_val v with Some d => Ok (d, s) | None => ill end.
