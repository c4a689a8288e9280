(** * AbiDefSpec: the binary and JSON forms of an ABI definition (specification for C43) *)
From Verif Require Import Base StreamFacts Name JsonInt Json JsonSpec Abi AbiRead.

(** ** Definitions which can be encoded
    Strings and lists have fewer than 2^32 elements, numbers fit their C++ types. *)
Definition small_text (s : bytes) : Prop := bytes_ok s /\ Z.of_nat (List.length s) < 2 ^ 32.
Definition small_list {A} (P : A -> Prop) (l : list A) : Prop := Forall P l /\ Z.of_nat (List.length l) < 2 ^ 32.
Definition uint (bits z : Z) : Prop := 0 <= z < 2 ^ bits.
Definition type_def_ok (t : type_def) : Prop := small_text (new_type_name t) /\ small_text (td_type t).
Definition field_def_ok (f : field_def) : Prop := small_text (fd_name f) /\ small_text (fd_type f).
Definition struct_def_ok (s : struct_def) : Prop := small_text (sd_name s) /\ small_text (sd_base s) /\ small_list field_def_ok (sd_fields s).
Definition action_def_ok (a : action_def) : Prop := uint 64 (ac_name a) /\ small_text (ac_type a) /\ small_text (ac_ricardian a).
Definition table_def_ok (t : table_def) : Prop :=
  uint 64 (tb_name t) /\ small_text (tb_index_type t) /\ small_list small_text (tb_key_names t) /\
  small_list small_text (tb_key_types t) /\ small_text (tb_type t).
Definition clause_ok (c : clause_pair) : Prop := small_text (cl_id c) /\ small_text (cl_body c).
Definition error_message_ok (e : error_message) : Prop := uint 64 (em_code e) /\ small_text (em_msg e).
Definition variant_def_ok (v : variant_def) : Prop := small_text (vd_name v) /\ small_list small_text (vd_types v).
Definition extension_ok (e : Z * bytes) : Prop := uint 16 (fst e) /\ small_text (snd e).
Definition abi_def_ok (d : abi_def) : Prop :=
  small_text (ad_version d) /\ small_list type_def_ok (ad_types d) /\ small_list struct_def_ok (ad_structs d) /\
  small_list action_def_ok (ad_actions d) /\ small_list table_def_ok (ad_tables d) /\ small_list clause_ok (ad_clauses d) /\
  small_list error_message_ok (ad_errors d) /\ small_list extension_ok (ad_extensions d) /\ small_list variant_def_ok (ad_variants d).

(** ** The binary form
    A string or list is its length as an unsigned LEB128 number followed by its elements;
    numbers are little endian. *)
Definition b_str (s : bytes) : bytes := encv (Z.of_nat (List.length s)) ++ s.
Definition b_list {A} (f : A -> bytes) (l : list A) : bytes := encv (Z.of_nat (List.length l)) ++ concat (map f l).
Definition b_type (t : type_def) : bytes := b_str (new_type_name t) ++ b_str (td_type t).
Definition b_field (f : field_def) : bytes := b_str (fd_name f) ++ b_str (fd_type f).
Definition b_struct (s : struct_def) : bytes := b_str (sd_name s) ++ b_str (sd_base s) ++ b_list b_field (sd_fields s).
Definition b_action (a : action_def) : bytes := le_bytes 8 (ac_name a) ++ b_str (ac_type a) ++ b_str (ac_ricardian a).
Definition b_table (t : table_def) : bytes :=
  le_bytes 8 (tb_name t) ++ b_str (tb_index_type t) ++ b_list b_str (tb_key_names t) ++ b_list b_str (tb_key_types t) ++ b_str (tb_type t).
Definition b_clause (c : clause_pair) : bytes := b_str (cl_id c) ++ b_str (cl_body c).
Definition b_error (e : error_message) : bytes := le_bytes 8 (em_code e) ++ b_str (em_msg e).
Definition b_variant (v : variant_def) : bytes := b_str (vd_name v) ++ b_list b_str (vd_types v).
Definition b_extension (e : Z * bytes) : bytes := le_bytes 2 (fst e) ++ b_str (snd e).
(** Everything before the list of variants, which old encoders do not write. *)
Definition b_abi_without_variants (d : abi_def) : bytes :=
  b_str (ad_version d) ++ b_list b_type (ad_types d) ++ b_list b_struct (ad_structs d) ++ b_list b_action (ad_actions d) ++
  b_list b_table (ad_tables d) ++ b_list b_clause (ad_clauses d) ++ b_list b_error (ad_errors d) ++ b_list b_extension (ad_extensions d).
Definition b_abi (d : abi_def) : bytes := b_abi_without_variants d ++ b_list b_variant (ad_variants d).

(** ** The JSON form
    Members are found by name, in any order; other members are ignored; a member which is not
    there leaves the empty string or list or zero. *)
Fixpoint member (k : bytes) (ms : list (bytes * jv)) : option jv :=
  match ms with
  | [] => None
  | (k', j) :: ms' => if beq k k' then Some j else member k ms'
  end.
Definition has {A} (ms : list (bytes * jv)) (k : string) (dflt : A) (R : jv -> A -> Prop) (x : A) : Prop :=
  match member (str k) ms with Some j => R j x | None => x = dflt end.
Definition json_str (j : jv) (s : bytes) : Prop := text_of j = Some s.            (* a string or a number *)
Definition json_name (j : jv) (n : Z) : Prop := exists s, text_of j = Some s /\ n = name_from_json_string s.   (* see C09 *)
Definition json_uint64 (j : jv) (z : Z) : Prop := exists s, text_of j = Some s /\ from_json_int false 8 s = Ok z. (* see C20 *)
Definition json_list {A} (R : jv -> A -> Prop) (j : jv) (l : list A) : Prop := exists js, j = JArr js /\ Forall2 R js l.
Definition json_obj (j : jv) (P : list (bytes * jv) -> Prop) : Prop := exists ms, j = JObj ms /\ P ms.
Definition json_type (j : jv) (t : type_def) : Prop := json_obj j (fun ms =>
  has ms "new_type_name" [] json_str (new_type_name t) /\ has ms "type" [] json_str (td_type t)).
Definition json_field (j : jv) (f : field_def) : Prop := json_obj j (fun ms =>
  has ms "name" [] json_str (fd_name f) /\ has ms "type" [] json_str (fd_type f)).
Definition json_struct (j : jv) (s : struct_def) : Prop := json_obj j (fun ms =>
  has ms "name" [] json_str (sd_name s) /\ has ms "base" [] json_str (sd_base s) /\ has ms "fields" [] (json_list json_field) (sd_fields s)).
Definition json_action (j : jv) (a : action_def) : Prop := json_obj j (fun ms =>
  has ms "name" 0 json_name (ac_name a) /\ has ms "type" [] json_str (ac_type a) /\ has ms "ricardian_contract" [] json_str (ac_ricardian a)).
Definition json_table (j : jv) (t : table_def) : Prop := json_obj j (fun ms =>
  has ms "name" 0 json_name (tb_name t) /\ has ms "index_type" [] json_str (tb_index_type t) /\
  has ms "key_names" [] (json_list json_str) (tb_key_names t) /\ has ms "key_types" [] (json_list json_str) (tb_key_types t) /\
  has ms "type" [] json_str (tb_type t)).
Definition json_clause (j : jv) (c : clause_pair) : Prop := json_obj j (fun ms =>
  has ms "id" [] json_str (cl_id c) /\ has ms "body" [] json_str (cl_body c)).
Definition json_error (j : jv) (e : error_message) : Prop := json_obj j (fun ms =>
  has ms "error_code" 0 json_uint64 (em_code e) /\ has ms "error_msg" [] json_str (em_msg e)).
Definition json_variant (j : jv) (v : variant_def) : Prop := json_obj j (fun ms =>
  has ms "name" [] json_str (vd_name v) /\ has ms "types" [] (json_list json_str) (vd_types v)).
(** Extensions cannot be given in JSON. *)
Definition json_extensions (j : jv) (l : list (Z * bytes)) : Prop := j = JArr [] /\ l = [].
Definition json_abi (j : jv) (d : abi_def) : Prop := json_obj j (fun ms =>
  has ms "version" [] json_str (ad_version d) /\ has ms "types" [] (json_list json_type) (ad_types d) /\
  has ms "structs" [] (json_list json_struct) (ad_structs d) /\ has ms "actions" [] (json_list json_action) (ad_actions d) /\
  has ms "tables" [] (json_list json_table) (ad_tables d) /\ has ms "ricardian_clauses" [] (json_list json_clause) (ad_clauses d) /\
  has ms "error_messages" [] (json_list json_error) (ad_errors d) /\ has ms "abi_extensions" [] json_extensions (ad_extensions d) /\
  has ms "variants" [] (json_list json_variant) (ad_variants d)).

(** Documents in which no object has two members with the same name. *)
Inductive unique : jv -> Prop :=
| unique_null : unique JNull
| unique_bool b : unique (JBool b)
| unique_str s : unique (JStr s)
| unique_num t : unique (JNum t)
| unique_arr l : Forall unique l -> unique (JArr l)
| unique_obj l : NoDup (map fst l) -> Forall (fun m => unique (snd m)) l -> unique (JObj l).

(** The usual document of a definition without extensions. *)
Definition d_str (s : bytes) : jv := JStr s.
Definition d_list {A} (f : A -> jv) (l : list A) : jv := JArr (map f l).
Definition d_type (t : type_def) : jv := JObj [(str "new_type_name", JStr (new_type_name t)); (str "type", JStr (td_type t))].
Definition d_field (f : field_def) : jv := JObj [(str "name", JStr (fd_name f)); (str "type", JStr (fd_type f))].
Definition d_struct (s : struct_def) : jv :=
  JObj [(str "name", JStr (sd_name s)); (str "base", JStr (sd_base s)); (str "fields", d_list d_field (sd_fields s))].
Definition d_name (n : Z) : jv := JStr (name_to_string n).
Definition d_action (a : action_def) : jv :=
  JObj [(str "name", d_name (ac_name a)); (str "type", JStr (ac_type a)); (str "ricardian_contract", JStr (ac_ricardian a))].
Definition d_table (t : table_def) : jv :=
  JObj [(str "name", d_name (tb_name t)); (str "index_type", JStr (tb_index_type t)); (str "key_names", d_list d_str (tb_key_names t));
        (str "key_types", d_list d_str (tb_key_types t)); (str "type", JStr (tb_type t))].
Definition d_clause (c : clause_pair) : jv := JObj [(str "id", JStr (cl_id c)); (str "body", JStr (cl_body c))].
Definition d_error (e : error_message) : jv := JObj [(str "error_code", JNum (int_notation (em_code e))); (str "error_msg", JStr (em_msg e))].
Definition d_variant (v : variant_def) : jv := JObj [(str "name", JStr (vd_name v)); (str "types", d_list d_str (vd_types v))].
Definition abi_document (d : abi_def) : jv :=
  JObj [(str "version", JStr (ad_version d)); (str "types", d_list d_type (ad_types d)); (str "structs", d_list d_struct (ad_structs d));
        (str "actions", d_list d_action (ad_actions d)); (str "tables", d_list d_table (ad_tables d));
        (str "ricardian_clauses", d_list d_clause (ad_clauses d)); (str "error_messages", d_list d_error (ad_errors d));
        (str "abi_extensions", JArr []); (str "variants", d_list d_variant (ad_variants d))].
