(** * CapiSpec: histories of calls (specification for C34 to C37) *)
From Verif Require Import Base Hex Json Abi AbiScalar AbiDef Capi.

(** A history: the calls made on one context, in order, with what each returned. *)
Inductive run (E : float_lib) : context -> list (op * ret) -> context -> Prop :=
| run_nil c : run E c [] c
| run_cons c f c1 r h c2 : call E (Some c) f (Some c1) (Returns r) -> run E c1 h c2 -> run E c ((f, r) :: h) c2.
(** [c] is the context after the history [h], which starts with abieos_create. *)
Definition reached (E : float_lib) (h : list (op * ret)) (c : context) : Prop := run E create h c.

(** What abieos.h promises for a null context. *)
Definition failure_value (f : op) : ret :=
  match f with
  | Get_error => R_text (Some (str "context is null"))
  | Get_bin_size => R_int 0
  | Get_bin_data => R_data None
  | Get_bin_hex | Name_to_string _ | Get_type_for_action _ _ | Get_type_for_table _ _ | Bin_to_json _ _ _ | Hex_to_json _ _ _ => R_text None
  | Set_abi _ _ | Set_abi_bin _ _ | Set_abi_hex _ _ | Json_to_bin _ _ _ | Json_to_bin_reorderable _ _ _ => R_bool false
  | String_to_name s => R_int (Name.string_to_name (text_arg s))      (* does not use the context *)
  end.
(** A call which reports failure: it returns false or a null pointer. *)
Definition failed (r : ret) : Prop := r = R_bool false \/ r = R_text None.

(** The ABI a call offers for a contract, in any of the three formats: see C43 for the JSON
    and binary formats and C17 for hex. *)
Inductive offers (E : float_lib) : op -> Z -> abi_def -> Prop :=
| offers_json k text d s : abi_def_from_json E (open_json (text_arg text)) = Ok (d, s) -> offers E (Set_abi k text) k d
| offers_bin k b d s : abi_def_from_bin b = Ok (d, s) -> offers E (Set_abi_bin k (Some b)) k d
| offers_hex k text b d s : unhex (text_arg text) = Some b -> abi_def_from_bin b = Ok (d, s) -> offers E (Set_abi_hex k text) k d.
Definition sets (k : Z) (f : op) : bool :=
  match f with Set_abi k' _ | Set_abi_bin k' _ | Set_abi_hex k' _ => k =? k' | _ => false end.
(** The contract [k] got an ABI in the history. *)
Definition is_set (k : Z) (h : list (op * ret)) : Prop := exists f, In (f, R_bool true) h /\ sets k f = true.
(** The ABI of the contract [k] after the history: the one of the first call which succeeded. *)
Definition abi_of (E : float_lib) (h : list (op * ret)) (k : Z) (d : abi_def) : Prop :=
  exists h1 f h2, h = h1 ++ (f, R_bool true) :: h2 /\ ~ is_set k h1 /\ sets k f = true /\ offers E f k d.

(** The calls which use the ABI of a contract. *)
Inductive use :=
| Use_json (type json : option bytes)
| Use_json_reorderable (type json : option bytes)
| Use_bin (type data : option bytes)
| Use_hex (type hex : option bytes)
| Use_action (action : Z)
| Use_table (table : Z).
Definition use_op (k : Z) (u : use) : op :=
  match u with
  | Use_json t j => Json_to_bin k t j
  | Use_json_reorderable t j => Json_to_bin_reorderable k t j
  | Use_bin t d => Bin_to_json k t d
  | Use_hex t h => Hex_to_json k t h
  | Use_action n => Get_type_for_action k n
  | Use_table n => Get_type_for_table k n
  end.
(** The calls which replace the binary result. *)
Definition makes_bin (f : op) : bool := match f with Json_to_bin _ _ _ | Json_to_bin_reorderable _ _ _ => true | _ => false end.
