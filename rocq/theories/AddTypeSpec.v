(** * AddTypeSpec: what deriving an ABI type from a C++ type has to achieve (specification for C49) *)
From Verif Require Import Base TypedBin JsonSpec Abi AbiScalar TypedJson AddType.

(** The ABI name of a C++ type. *)
Fixpoint abi_name (t : jty) : bytes :=
  match t with
  | JMaybe t => abi_name t ++ str "$"
  | _ => type_name t
  end.
(** The ABI description of a C++ type in terms of the names of the types it is made of. *)
Definition shape (t : jty) : adata :=
  match t with
  | JScalar b => ABuiltin b
  | JVec t => AArray (abi_name t)
  | JOpt t => AOptional (abi_name t)
  | JVariant ts => AVariant (map (fun t => (abi_name t, abi_name t)) ts)
  | JStruct _ fs => AStruct (map (fun f => (fst f, abi_name (snd f))) fs)
  | JMaybe t => AExtension (abi_name t)
  | _ => ABuiltin B_bytes
  end.
(** The types which a type is directly made of, and all types in it including itself. *)
Definition children (t : jty) : list jty :=
  match t with
  | JVec t | JOpt t | JMaybe t => [t]
  | JVariant ts => ts
  | JStruct _ fs => map snd fs
  | _ => []
  end.
Fixpoint parts (t : jty) : list jty :=
  t :: match t with
       | JVec t | JOpt t | JMaybe t => parts t
       | JVariant ts => flat_map parts ts
       | JStruct _ fs => flat_map (fun f => parts (snd f)) fs
       | _ => []
       end.
(** The types for which add_type compiles: no pairs, no enumerations, no keys, checksums,
    float128 and bytes; no might_not_exist in a vector, an optional or a variant. *)
Definition named (t : jty) : bool := match t with JMaybe _ => false | _ => true end.
Fixpoint addable (t : jty) : bool :=
  match t with
  | JScalar b => scalar_compiles b
  | JVec t | JOpt t => named t && addable t
  | JVariant ts => forallb (fun t => named t && addable t) ts
  | JStruct _ fs => forallb (fun f => addable (snd f)) fs
  | JMaybe t => addable t
  | JView | JOpaque _ => true
  | _ => false
  end.
(** No vector or optional of a vector or an optional, no extension of an extension. *)
Definition wraps (t : jty) : bool := match t with JVec _ | JOpt _ | JMaybe _ => true | _ => false end.
Definition nests (t : jty) : bool :=
  match t with
  | JVec t | JOpt t => negb (wraps t)
  | JMaybe t => named t
  | _ => true
  end.
Definition well_nested (t : jty) : bool := forallb nests (parts t).
(** Names tell types apart: types of the same name in [t] have the same description, and so have the
    types which the table has under such a name. *)
Definition coherent (m : amap) (t : jty) : Prop :=
  (forall u u', In u (parts t) -> In u' (parts t) -> abi_name u = abi_name u' -> shape u = shape u') /\
  (forall u d, In u (parts t) -> afind (abi_name u) m = Some d -> d = shape u).
(** The table describes the type. *)
Definition describes (m : amap) (t : jty) : Prop := forall u, In u (parts t) -> afind (abi_name u) m = Some (shape u).

(** A struct with only the first of its fields. *)
Definition incomplete (u : jty) (d : adata) : Prop :=
  match u with
  | JStruct _ fs => exists k, (k < List.length fs)%nat /\ d = AStruct (map (fun f => (fst f, abi_name (snd f))) (firstn k fs))
  | _ => False
  end.
(** [coherent], but the table may have incomplete structs. *)
Definition compatible (m : amap) (t : jty) : Prop :=
  (forall u u', In u (parts t) -> In u' (parts t) -> abi_name u = abi_name u' -> shape u = shape u') /\
  (forall u d, In u (parts t) -> afind (abi_name u) m = Some d -> d = shape u \/ incomplete u d).
(** The type tables of a program: convert()ed from a definition, then any number of type lookups
    and added types, each of which may have failed. *)
Inductive table : amap -> Prop :=
| table_convert a c : convert a = Ok c -> table (abi_types c)
| table_lookup m n : table m -> table (get_type_table 32 m n)
| table_add m t m' r : table m -> addable t = true -> compatible m t -> add_run t m = (m', r) -> table m'.

(** What is left of a type whose derivation fails: a struct has the fields before the first one with a forbidden nesting in its type. *)
Fixpoint before {A} (ok : A -> bool) (l : list A) : list A :=
  match l with
  | [] => []
  | x :: l => if ok x then x :: before ok l else []
  end.
Definition remains (u : jty) : adata :=
  match u with
  | JStruct _ fs => AStruct (map (fun f => (fst f, abi_name (snd f))) (before (fun f => well_nested (snd f)) fs))
  | _ => shape u
  end.

(** Objects and arrays inside each other. *)
Fixpoint nesting (j : jv) : nat :=
  match j with
  | JArr l => S (fold_right (fun x n => Nat.max (nesting x) n) O l)
  | JObj l => S (fold_right (fun x n => Nat.max (nesting (snd x)) n) O l)
  | _ => O
  end.
(** Types with a native writer: no might_not_exist and no opaque in them. *)
Definition writes (t : jty) : bool := match t with JMaybe _ | JOpaque _ => false | _ => true end.
Definition writable_type (t : jty) : bool := forallb writes (parts t).
