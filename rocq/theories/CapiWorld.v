(** * CapiWorld: any number of contexts, used in any order (src/abieos.cpp:51-253)
    The library has no variables outside the contexts (the tables of built-in functions are constant), so a
    context is changed only by the calls on it. Their arguments can point into other contexts too. Calls are not
    interleaved with each other here: a call on one context is one step. *)
From Verif Require Import Base Abi AbiScalar Capi CapiPtr CapiPtrSpec.

(** src/abieos.cpp:12-19, 51-62: what there is where abieos_create has returned a context, or will. Contexts are numbered, and a
    number is not used again (an address can be; pointers into the old context must not be used then). *)
Inductive slot := Unused | Live (m : memory) | Deleted.
Definition process := nat -> slot.
(** Before the first abieos_create, src/abieos.cpp:51 *)
Definition nothing : process := fun _ => Unused.
(** Changing one context (the calls of src/abieos.cpp:51-253) *)
Definition put (w : process) (i : nat) (s : slot) : process := fun j => if Nat.eqb j i then s else w j.

(** The pointers a program can have: to its own memory, or into an object of some context (src/abieos.cpp:12-19). *)
Inductive address := Local (b : bytes) | Object (i : nat) (p : pointer).
(** The bytes at a pointer, as [contents] (src/abieos.cpp:12-19) *)
Definition bytes_at (w : process) (a : address) : option bytes :=
  match a with
  | Local b => Some b
  | Object i p => match w i with Live m => contents m p | _ => None end
  end.
(** How a call on context [i] meets a pointer: as its own, or as memory of the caller (the arguments in src/abieos.cpp:89-253);
    [None]: there is nothing at the pointer any more. *)
Definition met (w : process) (i : nat) (a : address) : option pointer :=
  match a with
  | Object j p => if Nat.eqb j i then Some p else option_map Outside (bytes_at w a)
  | Local b => Some (Outside b)
  end.
Definition met_arg (w : process) (i : nat) (a : option address) : option (option pointer) :=
  match a with None => Some None | Some a => match met w i a with Some p => Some (Some p) | None => None end end.

(** The calls of src/abieos.h:12-73, with the pointers of the program. *)
Inductive request :=
| Q_plain (f : pop)                                     (* no pointers: get_error, get_bin_*, name_to_string, get_type_for_* *)
| Q_string_to_name (s : option address)
| Q_set_abi (contract : Z) (abi : option address)
| Q_set_abi_bin (contract : Z) (data : option address) (size : nat)
| Q_set_abi_hex (contract : Z) (hex : option address)
| Q_json_to_bin (contract : Z) (type json : option address)
| Q_json_to_bin_reorderable (contract : Z) (type json : option address)
| Q_bin_to_json (contract : Z) (type data : option address) (size : nat)
| Q_hex_to_json (contract : Z) (type hex : option address).
(** Calls without pointer arguments (src/abieos.h:20-44, 58-61) *)
Definition plain (f : pop) : bool :=
  match f with
  | P_get_error | P_get_bin_size | P_get_bin_data | P_get_bin_hex | P_name_to_string _ | P_get_type_for_action _ _ | P_get_type_for_table _ _ => true
  | _ => false
  end.
Definition both_args {A} (x y : option (option pointer)) (f : option pointer -> option pointer -> A) : option A :=
  match x, y with Some a, Some b => Some (f a b) | _, _ => None end.
(** src/abieos.cpp:61-253: the call as the code of context [i] meets it. *)
Definition arrives (w : process) (i : nat) (q : request) : option pop :=
  let a := met_arg w i in
  match q with
  | Q_plain f => if plain f then Some f else None
  | Q_string_to_name s => option_map P_string_to_name (a s)
  | Q_set_abi k t => option_map (P_set_abi k) (a t)
  | Q_set_abi_bin k d n => option_map (fun d => P_set_abi_bin k d n) (a d)
  | Q_set_abi_hex k h => option_map (P_set_abi_hex k) (a h)
  | Q_json_to_bin k t j => both_args (a t) (a j) (P_json_to_bin k)
  | Q_json_to_bin_reorderable k t j => both_args (a t) (a j) (P_json_to_bin_reorderable k)
  | Q_bin_to_json k t d n => both_args (a t) (a d) (fun t d => P_bin_to_json k t d n)
  | Q_hex_to_json k t h => both_args (a t) (a h) (P_hex_to_json k)
  end.

(** What happens to a context: abieos_create (src/abieos.cpp:51-59), abieos_destroy (61), any other call. *)
Inductive deed := Created | Destroyed | Called (f : pop) (r : pret).
(** One call of the program, on context [i]. *)
Inductive wstep (E : float_lib) (w : process) (i : nat) : deed -> slot -> Prop :=
| wstep_create : w i = Unused -> wstep E w i Created (Live created)
| wstep_destroy m : w i = Live m -> wstep E w i Destroyed Deleted
| wstep_call m q f m' r : w i = Live m -> arrives w i q = Some f -> pcall E (Some m) f (Some m') (PReturns r) -> wstep E w i (Called f r) (Live m').
(** A program: calls on contexts, in the order in which they are made (src/abieos.h). *)
Inductive wrun (E : float_lib) : process -> list (nat * deed) -> process -> Prop :=
| wrun_nil w w' : (forall i, w' i = w i) -> wrun E w [] w'
| wrun_cons w i d s h w' : wstep E w i d s -> wrun E (put w i s) h w' -> wrun E w ((i, d) :: h) w'.
