(** * Sortable keys: include/eosio/to_key.hpp *)
From Verif Require Import Base Stream TypedBin.

(** to_key.hpp:267: the minimum of an integral type; to_key.hpp:265-269: an integral value; [v -= min] in the unsigned type, byte swapped, raw. *)
Definition key_min (sg : bool) (n : nat) : Z := if sg then - 2 ^ (8 * Z.of_nat n - 1) else 0.
(** to_key.hpp:265-269, 270-272 (enums as their integers) *)
Definition key_int (sg : bool) (n : nat) (z : Z) : bytes :=
  let m := 2 ^ (8 * Z.of_nat n) in
  let v := z mod m in
  let v := (v - key_min sg n mod m) mod m in
  rev (le_bytes n v).
(** to_key.hpp:242-254 [float_to_key]; [bits] is the memcpy'ed object representation. *)
Definition float_to_key (n : nat) (bits : Z) : Z :=
  let result := bits in
  let signbit := 2 ^ (8 * Z.of_nat n - 1) in
  let result := if result =? signbit then 0 else result in
  let mask := if Z.land result signbit =? 0 then 0 else 2 ^ (8 * Z.of_nat n) - 1 in
  Z.lxor result (Z.lor mask signbit).
(** to_key.hpp:148-161 [to_key_varuint32]: [num_bytes] *)
Definition key_varuint32_size (obj : Z) : Z :=
  if obj <? 128 then 1 else if obj <? 16384 then 2 else if obj <? 2097152 then 3 else if obj <? 268435456 then 4 else 5.
(** The first byte, to_key.hpp:163-164: [static_cast<char>(~(0xFFu >> (n-1)) | (n == 5 ? 0 : obj >> ((n-1)*8)))]. *)
Definition key_varuint32_first (n obj : Z) : Z :=
  (Z.lor (2 ^ 32 - 1 - Z.shiftr 255 (n - 1)) (if n =? 5 then 0 else Z.shiftr obj ((n - 1) * 8))) mod 256.
(** to_key.hpp:165: [for (int i = num_bytes - 2; i >= 0; --i)]; [i] is one more than the loop variable. *)
Fixpoint key_varuint32_rest (S : ostream) (i : nat) (obj : Z) (s : ost S) : res (ost S) :=
  match i with
  | O => Ok s
  | Datatypes.S i' => let* s := owrite S s [Z.land (Z.shiftr obj (Z.of_nat i' * 8)) 255] in key_varuint32_rest S i' obj s
  end.
(** to_key.hpp:148-166 *)
Definition to_key_varuint32 (S : ostream) (obj : Z) (s : ost S) : res (ost S) :=
  let n := key_varuint32_size obj in
  let* s := owrite S s [key_varuint32_first n obj] in
  key_varuint32_rest S (Z.to_nat (n - 1)) obj s.
(** to_key.hpp:221-235 string_view and string *)
Fixpoint key_chars (S : ostream) (b : bytes) (s : ost S) : res (ost S) :=
  match b with
  | [] => Ok s
  | c :: b' => let* s := owrite S s [c] in
               let* s := (if c =? 0 then owrite S s [1] else Ok s) in
               key_chars S b' s
  end.
(** to_key.hpp:75: [has_bitwise_serialization<T>() && sizeof(T) == 1]. The bool overload (63-71)
    cannot be selected: its first template parameter is not deducible. *)
Definition one_byte (t : ty) : bool := match t with TInt _ 1 => true | TBool => true | _ => false end.
(** to_key.hpp:73-94 [to_key_optional]; [f] is [to_key] of the element type. *)
Definition to_key_optional (S : ostream) (t : ty) (f : forall S : ostream, val -> ost S -> res (ost S))
  (obj : option val) (s : ost S) : res (ost S) :=
  if one_byte t then
    match obj with
    | None => owrite S s [0; 0]
    | Some x =>
        let* tmp := f fixed_buf_stream x ([], 1%nat) in
        let b := nth 0 (fst tmp) 0 in
        let* s := owrite S s [b] in
        if b =? 0 then owrite S s [1] else Ok s
    end
  else
    match obj with
    | Some x => let* s := owrite S s [1] in f S x s
    | None => owrite S s [0]
    end.

(** [to_key] by type. Members of reflected structs (to_key.hpp:273-277), tuples (45-56), pairs (96-100), arrays
    (58-61) are written one after the other; fixed_bytes (fixed_bytes.hpp:225-228) writes its byte
    array, which is the same as an array of uint8_t. varint32 is disabled by a static_assert
    (to_key.hpp:187); input_stream, C arrays and might_not_exist have no [to_key]. *)
Fixpoint to_key_with (ref : forall S : ostream, nat -> val -> ost S -> res (ost S))
  (t : ty) (S : ostream) (v : val) (s : ost S) {struct t} : res (ost S) :=
    match t, v with
    | TInt sg n, VInt z => owrite S s (key_int sg n z)
    | TBool, VBool b => owrite S s [if b then 1 else 0]                (* 237-240 *)
    | TFloat n, VFloat _ b => owrite S s (key_int false n (float_to_key n b)) (* 258-264 *)
    | TVaruint32, VInt z => to_key_varuint32 S z s                     (* varint.hpp:232-235 *)
    | TString, VStr b => let* s := key_chars S b s in owrite S s [0; 0]
    | TVec t', VList l | TSeq t', VList l | TSet t', VList l =>        (* 102-127 *)
        let* s := write_seq (fun x => to_key_optional S t' (to_key_with ref t') (Some x)) l s in
        to_key_optional S t' (to_key_with ref t') None s
    | TMap k t', VList l =>                                            (* 129-132 *)
        let* s := write_seq (fun x s =>
                     match x with
                     | VList [a; b] => let* s := owrite S s [1] in
                                       let* s := to_key_with ref k S a s in to_key_with ref t' S b s
                     | _ => Undef "ill-typed value"
                     end) l s in
        owrite S s [0]
    | TArr _ t', VList l => write_seq (to_key_with ref t' S) l s
    | TOpt t', VOpt o => to_key_optional S t' (to_key_with ref t') o s (* 134-137 *)
    | TVariant ts, VVar i x =>                                         (* 215-219 *)
        let* s := to_key_varuint32 S i s in
        match nthz (map (fun t => to_key_with ref t S) ts) i with
        | Some f => f x s
        | None => Undef "ill-typed value"
        end
    | TTuple ts, VList l => write_tuple (map (fun t => to_key_with ref t S) ts) l s
    | TWrap _ t', _ => to_key_with ref t' S v s
    | TRef n, _ => ref S n v s
    | _, _ => Undef "ill-typed value"
    end.
(** to_key.hpp:42-43: [env] and [fuel] as in TypedBin.v, for recursive structs *)
Fixpoint to_key (env : nat -> ty) (fuel : nat) : ty -> forall S : ostream, val -> ost S -> res (ost S) :=
  to_key_with (fun S n v s =>
    match fuel with
    | O => Undef "stack"
    | Datatypes.S fuel' => to_key env fuel' (env n) S v s
    end).
(** to_key.hpp:280-289 [convert_to_key]: measure, resize, write, check. *)
Definition convert_to_key (env : nat -> ty) (fuel : nat) (t : ty) (v : val) (bin : bytes) : res bytes :=
  let* size := to_key env fuel t size_stream v 0%nat in
  let* (out, room) := to_key env fuel t fixed_buf_stream v ([], size) in
  let* _ := check (Nat.eqb room 0) E_underrun in
  Ok (bin ++ out).

(** ** Types which have keys *)
Fixpoint keyable (t : ty) : bool :=
  match t with
  | TInt _ _ | TBool | TFloat _ | TVaruint32 | TString | TRef _ => true
  | TVec t | TSeq t | TSet t | TArr _ t | TOpt t | TWrap _ t => keyable t
  | TMap k t => keyable k && keyable t
  | TVariant ts | TTuple ts => forallb keyable ts
  | TVarint32 | TStream | TCArr _ _ | TMaybe _ => false
  end.
