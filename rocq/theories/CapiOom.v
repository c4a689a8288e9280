(** * CapiOom: running out of memory inside a call (src/abieos.cpp)
    operator new throws std::bad_alloc where the code asks for memory and there is none. This can happen at any point
    of a call at which it allocates, so a call can end in many ways; what matters is what it has done to the
    context by then. handle_exceptions catches the exception like any other.
    Simplifications: the texts and the short string optimisation (up to 15 bytes without an allocation) are those of libstdc++;
    where a local std::string may or may not fit into that, it may fail here. Not modelled: rapidjson uses
    malloc for the stack of its parser and does not look whether it got the memory (external/rapidjson is not in /repo);
    the C++ runtime has memory in reserve for exception objects. *)
From Verif Require Import Base Stream TypedBin Hex Name Json Abi AbiScalar AbiBin AbiJson AbiDef Capi.

(** src/abi.cpp:78-113, 120-129: the text for which get_type calls itself. *)
Definition inner_text (m : amap) (name : bytes) : option bytes :=
  match afind name m with
  | None =>
    if ends_with name (str "?") then Some (drop_last 1 name)
    else if ends_with name (str "[]") then Some (drop_last 2 name)
    else if ends_with name (str "$") then Some (drop_last 1 name)
    else None
  | Some (AAliasDef t) => Some t
  | Some _ => None
  end.
(** src/abi.cpp:78-116: the table when get_type runs out of memory: while copying a text or making an error text, inside the call
    for the inner text, or after it while adding the entry (std::map::try_emplace adds it completely or not at all). *)
Inductive interrupted : nat -> amap -> bytes -> amap -> Prop :=
| int_here d m name : interrupted d m name m
| int_inside d m name base m' : inner_text m name = Some base -> interrupted d m base m' -> interrupted (S d) m name m'
| int_after d m name base p m' : inner_text m name = Some base -> get_type d m base = Ok (p, m') -> interrupted (S d) m name m'.
(** src/abieos.cpp:194, 211, 231: running out of memory in get_type for the contract [k] with the abi [a] *)
Definition in_lookup (k : Z) (a : abi) (t : bytes) (c c' : context) : Prop :=
  exists m', interrupted 32 (abi_types a) t m' /\ c' = with_contracts c (update k (Abi (action_types a) (table_types a) m') (contracts c)).

(** src/abieos.cpp:101-138: everything before the insertion works on local objects; the insertion is done or not. *)
Definition in_loading (c c' : context) : Prop := c' = with_error c (str "abi parse error").
(** src/abieos.cpp:119-138 *)
Definition in_set_abi_bin (data : option bytes) (c c' : context) : Prop :=
  match data with None | Some [] => False | Some _ => in_loading c c' end.
(** src/abieos.cpp:184-199, 201-216: in the text "... is not loaded", in get_type, or in the conversion into a temporary *)
Definition in_json (k : Z) (type : bytes) (c c' : context) : Prop :=
  let c := with_error c (str "json parse error") in
  match cfind k (contracts c) with
  | None => c' = c
  | Some a => in_lookup k a type c c' \/
      exists t a', abi_get_type a type = Ok (t, a') /\ c' = with_bin (with_contracts c (update k a' (contracts c))) []
  end.
(** src/abieos.cpp:218-238: the same, or in the exception "Extra data" *)
Definition in_bin_to_json (E : float_lib) (k : Z) (type : bytes) (data : option bytes) (c c' : context) : Prop :=
  let bin := match data with None => [] | Some b => b end in
  let c := with_error c (str "binary decode error") in
  match cfind k (contracts c) with
  | None => c' = c
  | Some a => in_lookup k a type c c' \/
      exists t a', abi_get_type a type = Ok (t, a') /\
        let c := with_contracts c (update k a' (contracts c)) in
        c' = c \/ exists text rest, bin_to_json E (abi_types a') t bin (Ok (text, rest)) /\ rest <> [] /\ c' = with_str c text
  end.
(** src/abieos.cpp:154-182: only the texts of the exceptions are allocated. *)
Definition in_get_type (field : abi -> list (Z * bytes)) (k n : Z) (c c' : context) : Prop :=
  c' = c /\ match cfind k (contracts c) with None => True | Some a => zfind n (field a) = None end.

(** src/abieos.cpp:63-253: the context when the call [f] on [c] runs out of memory. *)
Definition runs_out (E : float_lib) (f : op) (c c' : context) : Prop :=
  match f with
  | Get_error | Get_bin_size | Get_bin_data | String_to_name _ => False             (* 63-79, 89-92: nothing is allocated *)
  | Get_bin_hex => exists n, c' = with_str c (firstn n (hex (result_bin c)))        (* 81-87: result_str grows digit by digit *)
  | Name_to_string _ => c' = c                                                      (* 94-99 *)
  | Set_abi _ _ => in_loading c c'
  | Set_abi_bin _ d => in_set_abi_bin d c c'
  | Set_abi_hex _ h => c' = c \/ exists b, unhex (text_arg h) = Some b /\ in_set_abi_bin (Some b) c c'      (* 140-152 *)
  | Get_type_for_action k n => in_get_type action_types k n c c'
  | Get_type_for_table k n => in_get_type table_types k n c c'
  | Json_to_bin k t _ | Json_to_bin_reorderable k t _ => in_json k (text_arg t) c c'
  | Bin_to_json k t d => in_bin_to_json E k (text_arg t) d c c'
  | Hex_to_json k t h => c' = c \/ exists b, unhex (text_arg h) = Some b /\ in_bin_to_json E k (text_arg t) (Some b) c c'   (* 240-253 *)
  end.
(** What handle_exceptions returns after an exception: src/abieos.cpp:82, 95, 103, 120, 142, 155, 170, 188, 205, 220, 242 *)
Definition errval (f : op) : ret :=
  match f with
  | Set_abi _ _ | Set_abi_bin _ _ | Set_abi_hex _ _ | Json_to_bin _ _ _ | Json_to_bin_reorderable _ _ _ => R_bool false
  | _ => R_text None
  end.
(** std::bad_alloc::what(), src/abieos.cpp:38-42 *)
Definition bad_alloc : bytes := str "std::bad_alloc".
(** src/abieos.cpp:32-49: a call which runs out of memory. In the calls 150 and 251 inside another call the inner handle_exceptions
    catches, and the outer call returns its value. *)
Definition short_call (E : float_lib) (c : context) (f : op) (c' : context) (r : ret) : Prop :=
  exists c1, runs_out E f c c1 /\ c' = with_error c1 bad_alloc /\ r = errval f.

(** The exceptions which reach handle_exceptions when there is memory (src/abieos.cpp:38-47) *)
Definition thrown (E : float_lib) (f : op) (c : context) (m : bytes) : Prop :=
  match f with
  | Set_abi k t => exists c', set_abi_body E k (text_arg t) c c' (Throws m)
  | Set_abi_bin k d => exists c', set_abi_bin_body k d c c' (Throws m)
  | Set_abi_hex k h => exists b c', unhex (text_arg h) = Some b /\ set_abi_bin_body k (Some b) c c' (Throws m)
  | Get_type_for_action k n => exists c', get_type_body action_types "action" k n c c' (Throws m)
  | Get_type_for_table k n => exists c', get_type_body table_types "table" k n c c' (Throws m)
  | Json_to_bin k t j => exists c', json_body (json_to_bin E) k (text_arg t) (text_arg j) c c' (Throws m)
  | Json_to_bin_reorderable k t j => exists c', json_body (json_to_bin_reorderable E) k (text_arg t) (text_arg j) c c' (Throws m)
  | Bin_to_json k t d => exists c', bin_to_json_body E k (text_arg t) d c c' (Throws m)
  | Hex_to_json k t h => exists b c', unhex (text_arg h) = Some b /\ bin_to_json_body E k (text_arg t) (Some b) c c' (Throws m)
  | _ => False
  end.
(** src/abieos.cpp:33, 38-42: [set_error(context, e.what())] makes a std::string of the text inside the handler. If the text does not fit into
    the short string and there is no memory for it, a second exception leaves the function, which is noexcept: std::terminate. *)
Definition terminates (E : float_lib) (c : context) (f : op) : Prop :=
  exists m, thrown E f c m /\ (15 < List.length (cstr m))%nat.

(** src/abieos.cpp:51-59 abieos_create: a context, or null when there is no memory for it *)
Definition creates (x : option context) : Prop := x = Some create \/ x = None.

(** Histories of calls on one context (src/abieos.h), some of which run out of memory. *)
Inductive event := Returned (f : op) (r : ret) | Short (f : op) (r : ret).
Inductive srun (E : float_lib) : context -> list event -> context -> Prop :=
| srun_nil c : srun E c [] c
| srun_call c f c1 r h c2 : call E (Some c) f (Some c1) (Returns r) -> srun E c1 h c2 -> srun E c (Returned f r :: h) c2
| srun_short c f c1 r h c2 : short_call E c f c1 r -> srun E c1 h c2 -> srun E c (Short f r :: h) c2.
