(** * ABI driven conversion binary -> JSON: src/abieos.hpp:224-229, 275-283, 880-1008

    The C++ code keeps a stack of the structs, arrays and variants being converted
    and runs a loop which advances the top entry; [bstep] is one iteration. *)
From Verif Require Import Base Stream TypedBin Json Keys Abi AbiScalar Machine.

Definition max_stack_size : nat := 128.                 (* src/abieos.hpp:57 *)

(** bin_to_json_stack_entry, src/abieos.hpp:224-229 *)
Record bframe := BF { bf_type : bytes; bf_ext : bool; bf_pos : Z; bf_size : Z }.
(** bin_to_json_state, src/abieos.hpp:275-283 (without [skipped_extension], which is
    only written); the writer's buffer is [b_out]. The stack's top is its head. *)
Record bstate := BS { b_in : bytes; b_out : bytes; b_stack : list bframe }.

(** [ser] of an alias is null (src/abi.cpp:205); calling through it. *)
Definition no_serializer {A} : res A := Undef "null serializer".
(** src/abieos.hpp:905-917: pseudo_optional / pseudo_extension call each other on the C++ stack: T$ of T? of a
    plain type is the deepest nesting a loaded ABI has (C26), hence the budget. *)
Definition chain_budget : nat := 4.
(** Running out of the C++ stack. *)
Definition too_deep {A} : res A := Undef "stack".

(** ser->bin_to_json(state, allow_extensions, type, start = true): src/abieos.hpp:1002-1008
    (built-in types; 362-368 bytes), 905-912 optional, 914-917 extension, 919-927 struct,
    951-959 array, 975-982 variant. *)
Fixpoint bstart (E : float_lib) (m : amap) (c : nat) (ext : bool) (p : bytes) (s : bstate) : res bstate :=
  match c with
  | O => too_deep
  | S c' =>
    let* d := deref p m in
    match d with
    | ABuiltin b =>
        let* (v, r) := from_bin key_env 0 (scalar_ty b) (b_in s) in
        let* t := scalar_to_json E b v in
        Ok (BS r (b_out s ++ t) (b_stack s))
    | AOptional q =>
        let* (v, r) := from_bin key_env 0 TBool (b_in s) in
        match v with
        | VBool true => bstart E m c' ext q (BS r (b_out s) (b_stack s))
        | _ => Ok (BS r (b_out s ++ str "null") (b_stack s))
        end
    | AExtension q => bstart E m c' ext q s
    | AStruct _ => Ok (BS (b_in s) (b_out s ++ [123]) (BF p ext (-1) 0 :: b_stack s))
    | AArray _ =>
        let* (n, r) := varuint32_from_bin (b_in s) in
        Ok (BS r (b_out s ++ [91]) (BF p false (-1) n :: b_stack s))
    | AVariant _ => Ok (BS (b_in s) (b_out s ++ [91]) (BF p ext (-1) 0 :: b_stack s))
    | AAliasDef _ | AStructDef _ | AVariantDef _ | AAlias _ => no_serializer
    end
  end.

(** [type->extension_of()], src/abieos.hpp:935 and include/eosio/abi.hpp:177-180 *)
Definition is_ext_type (m : amap) (p : bytes) : res bool :=
  let* d := deref p m in Ok (is_extension d).

(** ser->bin_to_json(state, allow_extensions, type, start = false) for the entry [f] on
    top of [rest]: 928-949 struct, 960-973 array, 983-1000 variant. [++position] on an
    int is only taken to overflow for arrays (the other positions are bounded by the
    number of members). *)
Definition badvance (E : float_lib) (m : amap) (f : bframe) (rest : list bframe) (s : bstate) : res bstate :=
  let* d := deref (bf_type f) m in
  let pos := bf_pos f + 1 in
  let f' := BF (bf_type f) (bf_ext f) pos (bf_size f) in
  match d with
  | AStruct fields =>
      match nthz fields pos with
      | Some (name, q) =>
          let* x := is_ext_type m q in
          if beq (b_in s) [] && x && bf_ext f then Ok (BS (b_in s) (b_out s) (f' :: rest))
          else
            let sep := if pos =? 0 then [] else [44] in
            let last := pos =? Z.of_nat (List.length fields) - 1 in
            bstart E m chain_budget (bf_ext f && last) q
              (BS (b_in s) (b_out s ++ sep ++ to_json_string name ++ [58]) (f' :: rest))
      | None => Ok (BS (b_in s) (b_out s ++ [125]) rest)
      end
  | AArray q =>
      let* _ := if pos <? 2 ^ 31 then Ok tt else Undef "signed overflow" in
      if pos <? bf_size f then
        let sep := if pos =? 0 then [] else [44] in
        bstart E m chain_budget false q (BS (b_in s) (b_out s ++ sep) (f' :: rest))
      else Ok (BS (b_in s) (b_out s ++ [93]) rest)
  | AVariant fields =>
      if pos =? 0 then
        let* (i, r) := varuint32_from_bin (b_in s) in
        match nthz fields i with
        | Some (name, q) =>
            bstart E m chain_budget (bf_ext f) q (BS r (b_out s ++ to_json_string name ++ [44]) (f' :: rest))
        | None => Err E_bad_variant_index
        end
      else Ok (BS (b_in s) (b_out s ++ [93]) rest)
  | _ => no_serializer
  end.

(** One iteration of the loop of src/abieos.hpp:891-897; the result is the text written
    and the unread input. *)
Definition bstep (E : float_lib) (m : amap) (s : bstate) : res (bstate + (bytes * bytes)) :=
  match b_stack s with
  | [] => Ok (inr (b_out s, b_in s))
  | f :: rest =>
      let* s' := badvance E m f rest s in
      let* _ := check (Nat.leb (List.length (b_stack s')) max_stack_size) E_recursion_limit_reached in
      Ok (inl s')
  end.

(** bin_to_json(bin, type, dest, f), src/abieos.hpp:884-899: run on the input [bin] it
    ends with outcome [r]. *)
Definition bin_to_json (E : float_lib) (m : amap) (p : bytes) (bin : bytes) (r : res (bytes * bytes)) : Prop :=
  exec_from (bstep E m) (bstart E m chain_budget true p (BS bin [] [])) r.
