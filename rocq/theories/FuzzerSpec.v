(** * FuzzerSpec: what a fuzzer input means (specification for C57) *)
From Verif Require Import Base Json Abi AbiScalar Capi Fuzzer.

(** A text with its NUL. *)
Definition zero_ended (b : bytes) : Prop := exists x, b = x ++ [0].
(** [buf] is an input for: the flags [bin] and [op], the contract [k] and three zero ended pieces. *)
Definition input (buf : bytes) (bin op k : Z) (abi type data : bytes) : Prop :=
  exists pad na nt, buf = [bin; op] ++ pad ++ le_bytes 8 k ++ na ++ nt ++ abi ++ type ++ data /\
    List.length pad = 6%nat /\ 0 <= k < 2 ^ 64 /\
    na = le_bytes 4 (Z.of_nat (List.length abi)) /\ nt = le_bytes 4 (Z.of_nat (List.length type)) /\
    Z.of_nat (List.length abi) < 2 ^ 32 /\ Z.of_nat (List.length type) < 2 ^ 32 /\
    zero_ended abi /\ zero_ended type /\ zero_ended data.
(** What is asked of the library: load the ABI and, if that worked, convert. *)
Definition load_op (bin k : Z) (abi : bytes) : op := if bin =? 0 then Set_abi k (Some abi) else Set_abi_bin k (Some abi).
Definition convert_ops (op k : Z) (type data : bytes) : list Capi.op :=
  if op =? 0 then [Json_to_bin k (Some type) (Some data); Json_to_bin_reorderable k (Some type) (Some data)]
  else [Bin_to_json k (Some type) (Some data)].
Inductive plays (E : float_lib) : context -> list op -> fend -> Prop :=
| plays_nil c : plays E c [] (Exits 0)
| plays_cons c f c' r l o : call E (Some c) f (Some c') (Returns r) -> plays E c' l o -> plays E c (f :: l) o
| plays_dies c f c' w l : call E (Some c) f (Some c') (Undefined w) -> plays E c (f :: l) (Dies w).
Inductive session (E : float_lib) (load : op) (work : list op) : fend -> Prop :=
| loaded_ c o : call E (Some create) load (Some c) (Returns (R_bool true)) -> plays E c work o -> session E load work o
| not_loaded_ c r : call E (Some create) load (Some c) (Returns r) -> r <> R_bool true -> session E load work (Exits 0)
| load_dies c w : call E (Some create) load (Some c) (Undefined w) -> session E load work (Dies w).
