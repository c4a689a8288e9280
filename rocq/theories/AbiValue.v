(** * AbiValue: the values an ABI type describes, their binary form and their JSON form
    (specification vocabulary, independent of the conversion code) *)
From Verif Require Import Base Stream StreamFacts TypedBin TypedSpec JsonSpec Keys Abi AbiScalar.

(** ** Values *)
Inductive aval : Type :=
| AVBase (b : builtin) (v : val)
| AVNone                           (* an absent optional *)
| AVSome (v : aval)                (* a present optional *)
| AVList (l : list aval)           (* an array *)
| AVStruct (l : list aval)         (* the fields of a struct; trailing ones may be left out *)
| AVVar (i : Z) (v : aval).        (* the i-th alternative of a variant *)

(** ** Binary form *)
Fixpoint enc (v : aval) : bytes :=
  match v with
  | AVBase b x => scalar_bytes b x
  | AVNone => [0]
  | AVSome v => 1 :: enc v
  | AVList l => encv (Z.of_nat (List.length l)) ++ concat (map enc l)
  | AVStruct l => concat (map enc l)
  | AVVar i v => encv i ++ enc v
  end.

(** The byte strings which denote a value: as [enc], except that sizes and indices may
    be written with more bytes than needed, and built-in values in any way their
    decoder reads (C04). *)
Inductive form : aval -> bytes -> Prop :=
| form_base b v p : (forall r, from_bin key_env 0 (scalar_ty b) (p ++ r) = Ok (v, r)) -> form (AVBase b v) p
| form_none : form AVNone [0]
| form_some v p : form v p -> form (AVSome v) (1 :: p)
| form_list l n p : (forall r, varuint32_from_bin (n ++ r) = Ok (Z.of_nat (List.length l), r)) -> forms l p ->
    form (AVList l) (n ++ p)
| form_struct l p : forms l p -> form (AVStruct l) p
| form_var i v n p : (forall r, varuint32_from_bin (n ++ r) = Ok (i, r)) -> form v p -> form (AVVar i v) (n ++ p)
with forms : list aval -> bytes -> Prop :=
| forms_nil : forms [] []
| forms_cons v l p q : form v p -> forms l q -> forms (v :: l) (p ++ q).

(** ** Types and JSON form *)
Definition is_nil {A} (l : list A) : bool := match l with [] => true | _ => false end.

Section Types.
  Variable E : float_lib.
  Variable m : amap.

  Definition extension_type (p : bytes) : Prop := exists q, afind p m = Some (AExtension q).

  (** [shows k ext p v j]: [v] is a value of the type [p] and [j] its JSON form. [k] bounds
      the nesting of structs, arrays and variants in [v]. [ext]: trailing extension
      fields may be left out here, that is, nothing follows in the enclosing structs. *)
  Inductive shows : nat -> bool -> bytes -> aval -> jv -> Prop :=
  | shows_base k ext p b v j :
      afind p m = Some (ABuiltin b) -> scalar_ok b v -> scalar_jv E b v = Ok j -> shows k ext p (AVBase b v) j
  | shows_none k ext p q : afind p m = Some (AOptional q) -> shows k ext p AVNone JNull
  | shows_some k ext p q v j : afind p m = Some (AOptional q) -> shows k ext q v j -> shows k ext p (AVSome v) j
  | shows_ext k ext p q v j : afind p m = Some (AExtension q) -> shows k ext q v j -> shows k ext p v j
  | shows_list k ext p q l js :
      afind p m = Some (AArray q) -> Z.of_nat (List.length l) < 2 ^ 31 -> shows_items k q l js ->
      shows (S k) ext p (AVList l) (JArr js)
  | shows_struct k ext p fs l js :
      afind p m = Some (AStruct fs) -> shows_fields k ext fs l js -> shows (S k) ext p (AVStruct l) (JObj js)
  | shows_var k ext p fs i name q v j :
      afind p m = Some (AVariant fs) -> nthz fs i = Some (name, q) -> 0 <= i < 2 ^ 32 -> shows k ext q v j ->
      shows (S k) ext p (AVVar i v) (JArr [JStr name; j])
  with shows_items : nat -> bytes -> list aval -> list jv -> Prop :=
  | items_nil k q : shows_items k q [] []
  | items_cons k q v l j js : shows k false q v j -> shows_items k q l js -> shows_items k q (v :: l) (j :: js)
  with shows_fields : nat -> bool -> list (bytes * bytes) -> list aval -> list (bytes * jv) -> Prop :=
  | fields_nil k ext : shows_fields k ext [] [] []
  | fields_omit k f fs : Forall (fun x => extension_type (snd x)) (f :: fs) -> shows_fields k true (f :: fs) [] []
  | fields_cons k ext name q fs v l j js :
      shows k (ext && is_nil fs) q v j -> shows_fields k ext fs l js ->
      shows_fields k ext ((name, q) :: fs) (v :: l) ((name, j) :: js).

  (** The binary form has no mark for a left out extension field: its absence is told from
      the end of the data. [settled rest p v]: with [rest] behind the value [v] (of the type
      [p], in a position where extensions may be left out) the data does not suggest
      another reading: fields are left out only at the end of the data, and the data does
      not end where a present extension field begins. *)
  Inductive settled (rest : bytes) : bytes -> aval -> Prop :=
  | settled_base p b v : settled rest p (AVBase b v)
  | settled_none p : settled rest p AVNone
  | settled_some p q v : afind p m = Some (AOptional q) -> settled rest q v -> settled rest p (AVSome v)
  | settled_ext p q v : afind p m = Some (AExtension q) -> settled rest q v -> settled rest p v
  | settled_list p l : settled rest p (AVList l)
  | settled_struct p fs l : afind p m = Some (AStruct fs) -> settled_fields rest fs l -> settled rest p (AVStruct l)
  | settled_var p fs i name q v :
      afind p m = Some (AVariant fs) -> nthz fs i = Some (name, q) -> settled rest q v -> settled rest p (AVVar i v)
  with settled_fields (rest : bytes) : list (bytes * bytes) -> list aval -> Prop :=
  | settled_nil : settled_fields rest [] []
  | settled_omit f fs : rest = [] -> settled_fields rest (f :: fs) []
  | settled_cons name q fs v l :
      (extension_type q -> concat (map enc (v :: l)) ++ rest <> []) ->
      (fs = [] -> settled rest q v) -> settled_fields rest fs l -> settled_fields rest ((name, q) :: fs) (v :: l).

  (** Extension fields come last, as the ABI format intends. *)
  Definition trailing_extensions : Prop := forall p fs f gs1 gs2, afind p m = Some (AStruct fs) ->
    fs = gs1 ++ f :: gs2 -> extension_type (snd f) -> Forall (fun x => extension_type (snd x)) gs2.
End Types.

Scheme shows_mut := Minimality for shows Sort Prop
  with shows_items_mut := Minimality for shows_items Sort Prop
  with shows_fields_mut := Minimality for shows_fields Sort Prop.
Combined Scheme shows_mutind from shows_mut, shows_items_mut, shows_fields_mut.
