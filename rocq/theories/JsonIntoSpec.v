(** * JsonIntoSpec: what reading JSON does to an object (specification for C58) *)
From Verif Require Import Base TypedBin TypedSpec DecodeIntoSpec Hex Decimal Asset AssetFacts Time JsonInt Json Abi AbiScalar TypedJson TypedJsonSpec.

(** ** Texts which are read in part
    The longest beginning of the text with property [P] tells the value; without one it is [none]. *)
Definition longest {A} (P : bytes -> A -> Prop) (none : A) (s : bytes) (a : A) : Prop :=
  (exists p q, s = p ++ q /\ P p a /\ forall p' q' a', s = p' ++ q' -> P p' a' -> (List.length p' <= List.length p)%nat) \/
  (a = none /\ forall p q a', s = p ++ q -> ~ P p a').
(** A decimal number of a type's range. *)
Definition int_text (sg : bool) (n : nat) (p : bytes) (z : Z) : Prop :=
  tmin sg n <= z <= tmax sg n /\
  exists d, d <> [] /\ forallb is_digit d = true /\ (p = d /\ z = dval d \/ sg = true /\ p = 45 :: d /\ z = - dval d).
(** Blanks and up to seven capital letters. *)
Definition code_start (p : bytes) (z : Z) : Prop :=
  exists k l, p = spaces k ++ l /\ (List.length l <= 7)%nat /\ forallb is_upper l = true /\ z = le_val l.
(** Blanks, a sign, digits, a point and digits, each of them optional; the value is taken modulo 2^64. *)
Definition amount_start (p : bytes) (z : Z) : Prop :=
  exists k neg ip frac, p = spaces k ++ sign_text neg ++ ip ++ frac_text frac /\
    forallb is_digit ip = true /\ forallb is_digit (frac_digits frac) = true /\
    z = to_signed 64 (signed_val neg (dval (ip ++ frac_digits frac)) mod 2 ^ 64).
(** A date and time without fraction: yyyy-mm-ddThh:mm:ss *)
Definition date_text (m : overflow_mode) (p : bytes) (z : Z) : Prop := List.length p = 19%nat /\ time_point_sec_from_json_string m p = Ok z.
(** Pairs of hexadecimal digits. *)
Definition hex_text (p d : bytes) : Prop := Nat.even (List.length p) = true /\ forallb is_hex_digit p = true /\ d = pairs_value p.

(** An object of a built-in type which held [old], after from_json threw because of the text [s]. *)
Definition scalar_after (m : overflow_mode) (pf : nat -> bytes -> Z) (b : builtin) (old : val) (s : bytes) (v : val) : Prop :=
  let int sg n := exists z, v = VInt z /\ longest (int_text sg n) 0 s z in
  let float n := (s = [] /\ v = old) \/ (s <> [] /\ v = VFloat n (pf n s)) in
  match b with
  | B_int8 => int true 1%nat | B_int16 => int true 2%nat | B_int32 | B_varint32 => int true 4%nat | B_int64 => int true 8%nat | B_int128 => int true 16%nat
  | B_uint8 => int false 1%nat | B_uint16 => int false 2%nat | B_uint32 | B_varuint32 => int false 4%nat | B_uint64 => int false 8%nat | B_uint128 => int false 16%nat
  | B_float32 => float 4%nat | B_float64 => float 8%nat
  | B_symbol_code => exists z, v = VInt z /\ longest code_start 0 s z
  | B_symbol =>        (* the precision and the comma are read first *)
      (forall d r, s = d ++ 44 :: r -> d <> [] -> forallb is_digit d = true -> exists z, v = VInt z /\ longest code_start 0 r z) /\
      ((forall d r, s = d ++ 44 :: r -> d <> [] -> forallb is_digit d = false) -> v = old)
  | B_asset => exists a sym z, old = VList [a; sym] /\ v = VList [VInt z; sym] /\ longest amount_start 0 s z
  | B_time_point_sec => exists z0 z, old = VInt z0 /\ v = VInt z /\ longest (date_text m) z0 s z
  | B_bytes => (Nat.even (List.length s) = false -> v = old) /\ (Nat.even (List.length s) = true -> exists d, v = VStr d /\ longest hex_text [] s d)
  | _ => v = old
  end.

(** ** New objects
    [T x{}]: every number is zero, every text and container is empty, every optional is empty, a variant is a new
    object of its first type. *)
Inductive blank : ty -> val -> Prop :=
| Bl_int sg n : blank (TInt sg n) (VInt 0)
| Bl_varuint32 : blank TVaruint32 (VInt 0)
| Bl_varint32 : blank TVarint32 (VInt 0)
| Bl_bool : blank TBool (VBool false)
| Bl_float n : blank (TFloat n) (VFloat n 0)
| Bl_string : blank TString (VStr [])
| Bl_stream : blank TStream (VStr [])
| Bl_vector t : blank (TVec t) (VList [])
| Bl_list t : blank (TSeq t) (VList [])
| Bl_set t : blank (TSet t) (VList [])
| Bl_map k v : blank (TMap k v) (VList [])
| Bl_array n t l : List.length l = n -> Forall (blank t) l -> blank (TArr n t) (VList l)
| Bl_c_array n t l : List.length l = n -> Forall (blank t) l -> blank (TCArr n t) (VList l)
| Bl_optional t : blank (TOpt t) (VOpt None)
| Bl_variant t ts x : blank t x -> blank (TVariant (t :: ts)) (VVar 0 x)
| Bl_members ts l : blanks ts l -> blank (TTuple ts) (VList l)
| Bl_maybe t x : blank t x -> blank (TMaybe t) x
| Bl_struct k t x : blank t x -> blank (TWrap k t) x
with blanks : list ty -> list val -> Prop :=
| Bl_none : blanks [] []
| Bl_more t ts x l : blank t x -> blanks ts l -> blanks (t :: ts) (x :: l).

(** ** Complete texts read into used objects *)
(** What the object becomes when the text tells every member: vectors grow, everything else is replaced. *)
Fixpoint over (t : jty) (old new : val) {struct t} : val :=
  match t, old, new with
  | JVec _, VList l, VList l' => VList (l ++ l')
  | JStruct _ fs, VList l, VList l' =>
      VList ((fix go (fs : list (bytes * jty)) (l l' : list val) {struct fs} : list val :=
                match fs, l, l' with
                | f :: fs', x :: l, y :: l' => over (snd f) x y :: go fs' l l'
                | _, _, _ => []
                end) fs l l')
  | JMaybe t, _, _ => over t old new
  | _, _, _ => new
  end.
(** Types without vectors, except inside of optionals and variants, whose contents are made anew. *)
Fixpoint replaced (t : jty) : bool :=
  match t with
  | JVec _ => false
  | JStruct _ fs => forallb (fun f => replaced (snd f)) fs
  | JMaybe t => replaced t
  | _ => true
  end.
(** Types without recursion (from_json does not exist for the recursive ones). *)
Fixpoint unrecursive (t : jty) : bool :=
  match t with
  | JVec t | JOpt t | JMaybe t => unrecursive t
  | JVariant ts => forallb unrecursive ts
  | JStruct _ fs => forallb (fun f => unrecursive (snd f)) fs
  | JPair a b => unrecursive a && unrecursive b
  | JRef _ => false
  | _ => true
  end.
