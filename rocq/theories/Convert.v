(** * Convert: converting between C++ types member by member (include/eosio/convert.hpp)
    Types are those of TypedJson.v, [char] is int8_t. What the compiler decides (overload
    resolution, static_assert) is [compiles]; what the compiled code does is [convert]. *)
From Verif Require Import Base Stream TypedBin Abi AbiScalar TypedJson.

(** convert.hpp:11-27; [reverse] is the member type of that name *)
Inductive conversion := NoConversion | Strict | Narrowing | Widening.
(** include/eosio/convert.hpp:13, 18, 22, 26 *)
Definition reverse (k : conversion) : conversion :=
  match k with NoConversion => NoConversion | Strict => Strict | Narrowing => Widening | Widening => Narrowing end.
(** The user's overloads of conversion_kind, found by argument dependent lookup: for two structs, given by
    their names. Everything else gets the overload of line 29.
    Simplification: a declaration for types which are not reflected structs is not represented. *)
Definition declarations := bytes -> bytes -> conversion.
(** include/eosio/convert.hpp:29, 35-39 *)
Definition conversion_kind (D : declarations) (t u : jty) : conversion :=
  match t, u with JStruct n _, JStruct m _ => D n m | _, _ => NoConversion end.
(** convert.hpp:35-39 *)
Definition conversion_kind_t (D : declarations) (t u : jty) : conversion :=
  match conversion_kind D t u with NoConversion => reverse (conversion_kind D u t) | k => k end.

(** std::is_same_v *)
Definition builtin_dec (a b : builtin) : {a = b} + {a <> b}.
Proof. decide equality. Defined.
(** include/eosio/convert.hpp:60 [std::is_same_v<T, U>] *)
Fixpoint same_type (t u : jty) {struct t} : bool :=
  match t, u with
  | JScalar a, JScalar b => if builtin_dec a b then true else false
  | JVec a, JVec b | JOpt a, JOpt b | JMaybe a, JMaybe b | JOpaque a, JOpaque b => same_type a b
  | JVariant l, JVariant m =>
      (fix go (l m : list jty) {struct l} : bool :=
         match l, m with [], [] => true | x :: l', y :: m' => same_type x y && go l' m' | _, _ => false end) l m
  | JStruct n l, JStruct n' m =>
      beq n n' &&
      (fix go (l m : list (bytes * jty)) {struct l} : bool :=
         match l, m with
         | [], [] => true
         | x :: l', y :: m' => beq (fst x) (fst y) && same_type (snd x) (snd y) && go l' m'
         | _, _ => false
         end) l m
  | JPair a b, JPair c d => same_type a c && same_type b d
  | JView, JView => true
  | JEnum l, JEnum m => if list_eq_dec (list_eq_dec Z.eq_dec) l m then true else false
  | JRef i, JRef j => Nat.eqb i j
  | _, _ => false
  end.

(** convert.hpp:53-54: choose_first and choose_second, as the functions which pick one of the two structs *)
Inductive chooser := First | Second.
(** include/eosio/convert.hpp:53-54 *)
Definition choose {A} (c : chooser) (a b : A) : A := match c with First => a | Second => b end.

(** [field(&x)]: the member of that name. EOSIO_REFLECT passes a generic lambda which names the member
    (reflection.hpp:29-30, for_each_field.hpp:29-36), so it can be applied to any struct which has one.
    Simplification: all data members are reflected. The result has the position too. *)
Fixpoint member {A} (n : bytes) (l : list (bytes * A)) : option (nat * A) :=
  match l with
  | [] => None
  | (n', a) :: l' => if beq n n' then Some (O, a) else match member n l' with Some (i, b) => Some (S i, b) | None => None end
  end.

(** convert.hpp:47-51: the two static_asserts for a member which one of the structs does not have *)
Definition may_skip (k : conversion) : bool := match k with Strict | Widening => false | _ => true end.

(** Whether [convert(src, dst, chooser)] compiles, for [src] of type [t] and [dst] of type [u]. The overloads
    for variants, vectors, optionals, input_stream (69-94) and varuint32 (varint.hpp:207-210) are more
    specialised than the general one (58-67). The elements of a std::vector<bool> cannot be passed as [U&]. *)
Fixpoint compiles (D : declarations) (c : chooser) (t u : jty) {struct t} : bool :=
  match t, u with
  | JVariant ts, _ => forallb (fun t' => compiles D c t' u) ts
  | JVec a, JVec b => negb (same_type b (JScalar B_bool)) && compiles D c a b
  | JOpt a, JOpt b => compiles D c a b
  | JView, JVec (JScalar B_int8) => true
  | JScalar B_varuint32, JScalar B_uint32 => true
  | JStruct _ fs, JStruct _ gs =>
      same_type t u ||
      let k := conversion_kind_t D t u in
      let src := map (fun f => (fst f, compiles D c (snd f))) fs in
      match k with
      | NoConversion => false                                         (* 63 *)
      | _ => forallb (fun n => match member n src, member n gs with   (* 64-65, 41-51 *)
                               | Some (_, f), Some (_, g) => f g
                               | _, _ => may_skip k
                               end) (choose c (map fst fs) (map fst gs))
      end
  | _, _ => same_type t u
  end.

(** convert.hpp:58-94, what it does. [dst] is the old value; in cases which do not compile or have no values of that type
    the result means nothing. *)
Fixpoint convert (c : chooser) (t u : jty) (src dst : val) {struct t} : val :=
  match t, u with
  | JVariant ts, _ =>                                                 (* 69-72 *)
      match src with
      | VVar i x => match nthz (map (convert c) ts) i with Some f => f u x dst | None => dst end
      | _ => dst
      end
  | JVec a, JVec b =>                                                 (* 74-78: resize, then each element *)
      match src, dst with
      | VList l, VList m =>
          VList ((fix go (l m : list val) {struct l} : list val :=
                    match l, m with
                    | [], _ => []
                    | x :: l', [] => convert c a b x (jdefault b) :: go l' []
                    | x :: l', y :: m' => convert c a b x y :: go l' m'
                    end) l m)
      | _, _ => dst
      end
  | JOpt a, JOpt b =>                                                 (* 80-88 *)
      match src with
      | VOpt (Some x) => VOpt (Some (convert c a b x (jdefault b)))
      | VOpt None => VOpt None
      | _ => dst
      end
  | JView, JVec (JScalar B_int8) =>                                   (* 91-94 *)
      match src with VStr s => VList (map (fun x => VInt (to_signed 8 x)) s) | _ => dst end
  | JScalar B_varuint32, JScalar B_uint32 => src                      (* varint.hpp:207-210 *)
  | JStruct _ fs, JStruct _ gs =>
      if same_type t u then src                                       (* 60-61 *)
      else
        match src, dst with
        | VList l, VList m =>
            let from := map (fun f => (fst f, convert c (snd f))) fs in
            VList (fold_left (fun m n =>                              (* 64-65, 41-45 *)
                     match member n from, member n gs with
                     | Some (i, f), Some (j, g) =>
                         match nth_error l i, nth_error m j with
                         | Some x, Some y => set_nth m j (f g x y)
                         | _, _ => m
                         end
                     | _, _ => m
                     end) (choose c (map fst fs) (map fst gs)) m)
        | _, _ => dst
        end
  | _, _ => src                                                       (* 60-61 *)
  end.

(** from_bin.hpp:235-250, the last branch: the binary form of [u] is declared to be that of [t] by
    [serialize_as(u) -> t]; [obj] is what the object held before. *)
Definition from_bin_as (env : nat -> ty) (fuel : nat) (t u : jty) (obj : val) (s : istream) : res (val * istream) :=
  let* (temp, s) := from_bin env fuel (erase t) s in
  Ok (convert First t u temp obj, s).
