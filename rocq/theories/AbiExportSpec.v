(** * AbiExportSpec: what exporting an abi has to keep (specification for C50) *)
From Verif Require Import Base Abi AbiSpec.

(** The description of a type after an export: the alternatives of a variant go by the names of their types. *)
Definition rename (d : adata) : adata :=
  match d with AVariant fs => AVariant (map (fun f => (snd f, snd f)) fs) | _ => d end.
(** No alternative of a variant is named by an alias. *)
Definition own_tags (m : amap) : Prop :=
  forall p fs, afind p m = Some (AVariant fs) -> Forall (fun f => fst f = snd f) fs.
(** The types a type is made of, directly or not, including itself. *)
Inductive part_of (m : amap) (p : bytes) : bytes -> Prop :=
| part_self : part_of m p p
| part_next q d r : part_of m p q -> afind q m = Some d -> In r (pointers d) -> part_of m p r.
