(** * TypedSpec: which values a C++ type has (specification vocabulary) *)
From Verif Require Import Base TypedBin.

(** [wf env fuel t v]: [v] is a value of type [t] with serializable size (every
    container and string has fewer than 2^32 elements), using at most [fuel]
    nested recursive types. Every finite C++ value satisfies it for some fuel. *)
Definition len_ok {A} (l : list A) : bool := Z.of_nat (List.length l) <? 2 ^ 32.

Definition int_ok (signed : bool) (n : nat) (z : Z) : bool :=
  (0 <? Z.of_nat n) && (Z.of_nat n <=? 16) &&
  if signed then fits_s (8 * Z.of_nat n) z else fits_u (8 * Z.of_nat n) z.

Fixpoint forallb2 {A} (fs : list (A -> bool)) (l : list A) : bool :=
  match fs, l with
  | [], [] => true
  | f :: fs', x :: l' => f x && forallb2 fs' l'
  | _, _ => false
  end.

(** Strictly increasing under the key order: each element is before all later ones. *)
Fixpoint strictly_sorted (key : val -> val) (l : list val) : bool :=
  match l with
  | [] => true
  | x :: l' => forallb (fun y => match vcmp (key x) (key y) with Lt => true | _ => false end) l'
               && strictly_sorted key l'
  end.
Definition keys_ok (key : val -> val) (l : list val) : bool :=
  strictly_sorted key l && forallb (fun x => negb (has_nan (key x))) l.

(** might_not_exist is only used around containers. *)
Definition maybe_ok (t : ty) : bool :=
  match t with TVec _ | TSeq _ | TSet _ | TMap _ _ | TString | TStream => true | _ => false end.

Fixpoint wf_with (ref : nat -> val -> bool) (t : ty) (v : val) {struct t} : bool :=
  match t, v with
  | TInt sg n, VInt z => int_ok sg n z
  | TBool, VBool _ => true
  | TFloat n, VFloat m b => Nat.eqb n m && (Nat.eqb n 4 || Nat.eqb n 8) && fits_u (8 * Z.of_nat n) b
  | TVaruint32, VInt z => fits_u 32 z
  | TVarint32, VInt z => fits_s 32 z
  | TString, VStr b | TStream, VStr b => bytes_okb b && len_ok b
  | TVec t', VList l | TSeq t', VList l => len_ok l && forallb (wf_with ref t') l
  | TSet t', VList l => len_ok l && forallb (wf_with ref t') l && keys_ok id_key l
  | TMap k t', VList l =>
      len_ok l
      && forallb (fun p => match p with
                           | VList [x; y] => wf_with ref k x && wf_with ref t' y
                           | _ => false
                           end) l
      && keys_ok pair_key l
  | TArr n t', VList l => Nat.eqb (List.length l) n && forallb (wf_with ref t') l
  | TCArr n t', VList l => Nat.eqb (List.length l) n && len_ok l && forallb (wf_with ref t') l
  | TOpt _, VOpt None => true
  | TOpt t', VOpt (Some x) => wf_with ref t' x
  | TVariant ts, VVar i x =>
      fits_u 32 i && match nthz (map (wf_with ref) ts) i with Some f => f x | None => false end
  | TTuple ts, VList l => forallb2 (map (wf_with ref) ts) l
  | TMaybe t', _ => maybe_ok t' && wf_with ref t' v
  | TWrap _ t', _ => wf_with ref t' v
  | TRef n, _ => ref n v
  | _, _ => false
  end.
Fixpoint wf (env : nat -> ty) (fuel : nat) : ty -> val -> bool :=
  wf_with (fun n v => match fuel with O => false | S f => wf env f (env n) v end).

(** Types C++ can instantiate: integer sizes 1..16 bytes, float 4 or 8, arrays
    with fewer than 2^32 elements, might_not_exist around containers. *)
Fixpoint ty_ok (t : ty) : bool :=
  match t with
  | TInt _ n => (0 <? Z.of_nat n) && (Z.of_nat n <=? 16)
  | TFloat n => Nat.eqb n 4 || Nat.eqb n 8
  | TBool | TVaruint32 | TVarint32 | TString | TStream | TRef _ => true
  | TVec t | TSeq t | TSet t | TArr _ t | TOpt t | TWrap _ t => ty_ok t
  | TMap k t => ty_ok k && ty_ok t
  | TCArr n t => (Z.of_nat n <? 2 ^ 32) && ty_ok t
  | TVariant ts | TTuple ts => forallb ty_ok ts
  | TMaybe t => maybe_ok t && ty_ok t
  end.

(** Errors the decoder may report. *)
Definition decode_errors : list error :=
  [E_overrun; E_invalid_varuint_encoding; E_array_size_mismatch; E_bad_variant_index; E_length_error].
(** Undefined behaviour the decoder may run into: a bool byte other than 0/1, a
    NaN as set/map key, unbounded recursion through a recursive type. *)
Definition decode_hazards : list string :=
  ["bool object with a representation other than 0 or 1";
   "NaN in std::set/std::map key"; "stack"]%string.
