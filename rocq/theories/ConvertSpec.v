(** * ConvertSpec: vocabulary for the properties of member-wise conversions (C52) *)
From Verif Require Import Base TypedBin Abi AbiScalar TypedJson TypedJsonSpec Convert.

(** [v] is a value of the (not recursive) C++ type [t]. *)
Definition value_of (t : jty) (v : val) : Prop := jwf (fun _ => JView) 0 t v = true.

(** A type without recursion, whose structs have at most one member of a name and whose variants have an
    alternative (std::variant<> has no objects). *)
Inductive plain : jty -> Prop :=
| P_scalar b : plain (JScalar b)
| P_vec t : plain t -> plain (JVec t)
| P_opt t : plain t -> plain (JOpt t)
| P_variant ts : ts <> [] -> (forall t, In t ts -> plain t) -> plain (JVariant ts)
| P_struct n fs : NoDup (map fst fs) -> (forall f, In f fs -> plain (snd f)) -> plain (JStruct n fs)
| P_pair a b : plain a -> plain b -> plain (JPair a b)
| P_maybe t : plain t -> plain (JMaybe t)
| P_view : plain JView
| P_opaque t : plain (JOpaque t)
| P_enum l : plain (JEnum l).

(** [u] has everything [t] has: every member of [t] is in [u], with the same type or one which again
    has everything. *)
Inductive wider : jty -> jty -> Prop :=
| W_same t : wider t t
| W_vec t u : wider t u -> wider (JVec t) (JVec u)
| W_opt t u : wider t u -> wider (JOpt t) (JOpt u)
| W_struct n m fs gs :
    (forall k f, In (k, f) fs -> exists g, In (k, g) gs /\ wider f g) -> wider (JStruct n fs) (JStruct m gs).

(** Every member of [u] gets its value from [t], at every level; what is in an optional is new anyway. *)
Inductive fills : jty -> jty -> Prop :=
| F_same t : fills t t
| F_view : fills JView (JVec (JScalar B_int8))
| F_varuint : fills (JScalar B_varuint32) (JScalar B_uint32)
| F_vec t u : fills t u -> fills (JVec t) (JVec u)
| F_opt t u : fills (JOpt t) (JOpt u)
| F_variant ts u : (forall t, In t ts -> fills t u) -> fills (JVariant ts) u
| F_struct n m fs gs :
    (forall k g, In (k, g) gs -> exists f, In (k, f) fs /\ fills f g) -> fills (JStruct n fs) (JStruct m gs).
