(** * CapiPtrSpec: what the pointers of the C interface mean to its user (specification for C55) *)
From Verif Require Import Base Json Abi AbiScalar Capi CapiPtr.

(** The texts behind the pointers: the context of Capi.v. *)
Definition view (m : memory) : context :=
  Ctx match last m with Some l => l | None => buffer m end (rstr m) (rbin m) (abis m).
(** The bytes an argument stands for at the time of the call. *)
Definition text_at (m : memory) (p : option pointer) : option bytes :=
  match p with None => None | Some p => Some match contents m p with Some b => b | None => [] end end.
Definition data_at (m : memory) (p : option pointer) (size : nat) : option bytes := option_map (firstn size) (text_at m p).
(** The call with copies of its arguments, made just before it. *)
Definition copied (m : memory) (f : pop) : op :=
  match f with
  | P_get_error => Get_error
  | P_get_bin_size => Get_bin_size
  | P_get_bin_data => Get_bin_data
  | P_get_bin_hex => Get_bin_hex
  | P_string_to_name s => String_to_name (text_at m s)
  | P_name_to_string n => Name_to_string n
  | P_set_abi k t => Set_abi k (text_at m t)
  | P_set_abi_bin k d n => Set_abi_bin k (data_at m d n)
  | P_set_abi_hex k h => Set_abi_hex k (text_at m h)
  | P_get_type_for_action k n => Get_type_for_action k n
  | P_get_type_for_table k n => Get_type_for_table k n
  | P_json_to_bin k t j => Json_to_bin k (text_at m t) (text_at m j)
  | P_json_to_bin_reorderable k t j => Json_to_bin_reorderable k (text_at m t) (text_at m j)
  | P_bin_to_json k t d n => Bin_to_json k (text_at m t) (data_at m d n)
  | P_hex_to_json k t h => Hex_to_json k (text_at m t) (text_at m h)
  end.
(** A text argument is null or there is a NUL after it; a data argument is null or [size] bytes are there. *)
Definition is_text (m : memory) (p : option pointer) : Prop :=
  match p with None => True | Some p => exists b, contents m p = Some b /\ In 0 b end.
Definition is_data (m : memory) (p : option pointer) (size : nat) : Prop :=
  match p with None => True | Some p => exists b, contents m p = Some b /\ (size <= List.length b)%nat end.
Definition from_bin_data (p : option pointer) : bool := match p with Some (Bin_bytes _) => true | _ => false end.
(** What a caller has to see to: the arguments can be read, and the JSON text is not in the memory which
    abieos_get_bin_data gives. *)
Definition proper (m : memory) (f : pop) : Prop :=
  match f with
  | P_string_to_name s => is_text m s
  | P_set_abi _ t => is_text m t
  | P_set_abi_bin _ d n => is_data m d n
  | P_set_abi_hex _ h => is_text m h
  | P_json_to_bin _ t j | P_json_to_bin_reorderable _ t j => is_text m t /\ is_text m j /\ from_bin_data j = false
  | P_bin_to_json _ t d n => is_text m t /\ is_data m d n
  | P_hex_to_json _ t h => is_text m t /\ is_text m h
  | _ => True
  end.
(** What the caller sees: the C string or the data at the pointer returned. *)
Definition seen (m : memory) (r : pret) : ret :=
  match r with
  | P_bool b => R_bool b
  | P_text None => R_text None
  | P_text (Some p) => R_text (c_string m p)
  | P_data None => R_data None
  | P_data (Some p) => R_data (contents m p)
  | P_int z => R_int z
  end.
Definition seen_outcome (m : memory) (o : poutcome) : outcome :=
  match o with PReturns r => Returns (seen m r) | PUndefined w => Undefined w end.

(** A history of calls on one context. *)
Inductive prun (E : float_lib) : memory -> list (pop * pret) -> memory -> Prop :=
| prun_nil m : prun E m [] m
| prun_cons m f m1 r h m2 : pcall E (Some m) f (Some m1) (PReturns r) -> prun E m1 h m2 -> prun E m ((f, r) :: h) m2.

(** How long a returned pointer can be used: until the first later call on the context which is one of these. *)
Definition makes_text (f : pop) : bool :=
  match f with P_get_bin_hex | P_name_to_string _ | P_bin_to_json _ _ _ _ | P_hex_to_json _ _ _ => true | _ => false end.
Definition makes_data (f : pop) : bool := match f with P_json_to_bin _ _ _ | P_json_to_bin_reorderable _ _ _ => true | _ => false end.
Definition fails (r : pret) : bool := match r with P_bool false | P_text None => true | _ => false end.
Definition ends (f : pop) (later : pop * pret) : bool :=
  match f with
  | P_get_error => fails (snd later)
  | P_get_bin_data => makes_data (fst later)
  | P_get_bin_hex | P_name_to_string _ | P_bin_to_json _ _ _ _ | P_hex_to_json _ _ _ => makes_text (fst later)
  | _ => false
  end.
Definition pointer_of (r : pret) : option pointer := match r with P_text p | P_data p => p | _ => None end.
