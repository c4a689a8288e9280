(** * TypedBin: the native (C++ type driven) binary format
    include/eosio/to_bin.hpp and include/eosio/from_bin.hpp *)
From Verif Require Import Base Stream.

(** How a wrapper type with custom JSON prints; irrelevant for the binary form,
    which is that of the wrapped layout (EOSIO_REFLECT'ed members). *)
Inductive kind : Set :=
| KStruct (names : list bytes)     (* reflected struct, one name per member *)
| KNamed (n : string).             (* type with its own to_json/from_json  *)

(** The universe of C++ types the templates are instantiated at.
    Reflected structs are [TWrap (KStruct names) (TTuple members)] (the members
    of bases come first, include/eosio/reflection.hpp:29-35 and 43-45), pairs
    and tuples are [TTuple]. [TRef n] refers to the n-th recursive type. *)
Inductive ty : Set :=
| TInt (signed : bool) (size : nat)  (* (u)int8..128_t, char, scoped enums: size in bytes *)
| TBool
| TFloat (size : nat)                (* float, double: IEEE bits *)
| TVaruint32 | TVarint32
| TString
| TStream                            (* input_stream: a view of bytes *)
| TVec (t : ty)                      (* std::vector *)
| TSeq (t : ty)                      (* std::list, std::deque *)
| TSet (t : ty)
| TMap (k v : ty)
| TArr (n : nat) (t : ty)            (* std::array<T,N> *)
| TCArr (n : nat) (t : ty)           (* T[N] *)
| TOpt (t : ty)
| TVariant (ts : list ty)
| TTuple (ts : list ty)
| TMaybe (t : ty)                    (* might_not_exist<T>, include/eosio/abi.hpp:43-62 *)
| TWrap (k : kind) (t : ty)
| TRef (n : nat).

(** Values of the types above. *)
Inductive val : Set :=
| VInt (z : Z)
| VBool (b : bool)
| VFloat (size : nat) (bits : Z)
| VStr (s : bytes)
| VList (l : list val)               (* containers, arrays, tuples, structs; a map is a list of pairs *)
| VOpt (o : option val)
| VVar (i : Z) (v : val).

(** include/eosio/stream.hpp:53-63 [has_bitwise_serialization]: arithmetic types
    and scoped enums. ([bool] is bitwise too, but std::vector<bool> has no
    data() and does not compile.) *)
Definition bitwise_size (t : ty) : option nat :=
  match t with
  | TInt _ n => Some n
  | TFloat n => Some n
  | _ => None
  end.

(** Object representation of an arithmetic value (little endian target). *)
Definition raw_bytes (t : ty) (v : val) : res bytes :=
  match t, v with
  | TInt _ n, VInt z => Ok (le_bytes n z)
  | TFloat n, VFloat _ b => Ok (le_bytes n b)
  | _, _ => Undef "ill-typed value"
  end.
(** The converse, include/eosio/from_bin.hpp:239. *)
Definition of_raw (t : ty) (b : bytes) : val :=
  match t with
  | TInt true n => VInt (to_signed (8 * Z.of_nat n) (le_val b))
  | TFloat n => VFloat n (le_val b)
  | _ => VInt (le_val b)
  end.

(** Object representation of consecutive elements, include/eosio/to_bin.hpp:75, 87. *)
Fixpoint raws (t : ty) (l : list val) : res bytes :=
  match l with
  | [] => Ok []
  | v :: l' => let* a := raw_bytes t v in let* b := raws t l' in Ok (a ++ b)
  end.
(** Cut [k] consecutive pieces of [n] bytes. *)
Fixpoint cut (t : ty) (n k : nat) (b : bytes) : list val :=
  match k with
  | O => []
  | S k' => of_raw t (firstn n b) :: cut t n k' (skipn n b)
  end.

(** operator< of the element types, as used by std::set / std::map: integers,
    bool, IEEE floats (no NaN: see [has_nan]), strings, lexicographic
    containers/tuples/structs (include/eosio/operators.hpp), optional,
    variant. Different shapes never meet in well typed sets. *)
Definition float_sign (n : nat) (b : Z) : bool := 2 ^ (8 * Z.of_nat n - 1) <=? b.
(** IEEE 754 magnitude bits. *)
Definition float_mag (n : nat) (b : Z) : Z := b mod 2 ^ (8 * Z.of_nat n - 1).
(** IEEE 754 order as an integer. *)
Definition float_rank (n : nat) (b : Z) : Z :=
  if float_sign n b then - float_mag n b else float_mag n b.
(** IEEE 754 binary32 and binary64. *)
Definition float_mant_bits (n : nat) : Z := if Nat.eqb n 4 then 23 else 52.
(** IEEE 754 infinity, as magnitude. *)
Definition float_inf (n : nat) : Z :=
  2 ^ (8 * Z.of_nat n - 1) - 2 ^ float_mant_bits n.
(** IEEE 754 NaN. *)
Definition is_nan (n : nat) (b : Z) : bool := float_inf n <? float_mag n b.

(** std::string::operator< *)
Fixpoint lexcmp (a b : bytes) : comparison :=
  match a, b with
  | [], [] => Eq
  | [], _ :: _ => Lt
  | _ :: _, [] => Gt
  | x :: a', y :: b' => match x ?= y with Eq => lexcmp a' b' | c => c end
  end.
(** Order of the arithmetic types. *)
Definition vrank (v : val) : Z :=
  match v with
  | VInt _ => 0 | VBool _ => 1 | VFloat _ _ => 2 | VStr _ => 3 | VList _ => 4 | VOpt _ => 5 | VVar _ _ => 6
  end.
(** operator< used by std::set and std::map of include/eosio/from_bin.hpp:63, 129. *)
Fixpoint vcmp (a b : val) {struct a} : comparison :=
  match a, b with
  | VInt x, VInt y => x ?= y
  | VBool x, VBool y => Z.b2z x ?= Z.b2z y
  | VFloat n x, VFloat m y =>
      match Nat.compare n m with Eq => float_rank n x ?= float_rank n y | c => c end
  | VStr x, VStr y => lexcmp x y
  | VList x, VList y =>
      (fix go (l m : list val) {struct l} : comparison :=
         match l, m with
         | [], [] => Eq
         | [], _ :: _ => Lt
         | _ :: _, [] => Gt
         | p :: l', q :: m' => match vcmp p q with Eq => go l' m' | c => c end
         end) x y
  | VOpt None, VOpt None => Eq
  | VOpt None, VOpt (Some _) => Lt
  | VOpt (Some _), VOpt None => Gt
  | VOpt (Some x), VOpt (Some y) => vcmp x y
  | VVar i x, VVar j y => match i ?= j with Eq => vcmp x y | c => c end
  | _, _ => vrank a ?= vrank b
  end.
(** A value std::set has no strict weak order for. *)
Fixpoint has_nan (v : val) : bool :=
  match v with
  | VFloat n b => is_nan n b
  | VList l => existsb has_nan l
  | VOpt (Some x) => has_nan x
  | VVar _ x => has_nan x
  | _ => false
  end.

(** std::set::emplace / std::map::emplace: [key] extracts the sort key. *)
Fixpoint set_emplace (key : val -> val) (x : val) (l : list val) : list val :=
  match l with
  | [] => [x]
  | y :: l' => match vcmp (key x) (key y) with
               | Lt => x :: l
               | Eq => l
               | Gt => y :: set_emplace key x l'
               end
  end.
(** The key of a std::set element. *)
Definition id_key (v : val) : val := v.
(** The key of a std::map element. *)
Definition pair_key (v : val) : val := match v with VList (k :: _) => k | _ => v end.

(** std::get of a variant or tuple by index. *)
Fixpoint nthz {A} (l : list A) (i : Z) : option A :=
  match l with
  | [] => None
  | x :: l' => if i =? 0 then Some x else nthz l' (i - 1)
  end.

(** ** to_bin: include/eosio/to_bin.hpp:52-169.
    Loops over containers; [f] writes one element. *)
Fixpoint write_seq {S : ostream} (f : val -> ost S -> res (ost S)) (l : list val) (s : ost S)
  : res (ost S) :=
  match l with
  | [] => Ok s
  | x :: l' => let* s := f x s in write_seq f l' s
  end.
(** include/eosio/to_bin.hpp:111-113, 122-125 *)
Fixpoint write_pairs {S : ostream} (f g : val -> ost S -> res (ost S)) (l : list val) (s : ost S)
  : res (ost S) :=
  match l with
  | [] => Ok s
  | VList [x; y] :: l' => let* s := f x s in let* s := g y s in write_pairs f g l' s
  | _ => Undef "ill-typed value"
  end.
(** include/eosio/to_bin.hpp:140-151 *)
Fixpoint write_tuple {S : ostream} (fs : list (val -> ost S -> res (ost S))) (l : list val) (s : ost S)
  : res (ost S) :=
  match fs, l with
  | [], [] => Ok s
  | f :: fs', x :: l' => let* s := f x s in write_tuple fs' l' s
  | _, _ => Undef "ill-typed value"
  end.

(** include/eosio/to_bin.hpp:52-169, the templates, [ref n] being the instance for the n-th recursive type. A
    value which does not have the shape of its type is [Undef "ill-typed value"]
    (such a value cannot be constructed in C++). *)
Fixpoint to_bin_with (S : ostream) (ref : nat -> val -> ost S -> res (ost S))
  (t : ty) (v : val) (s : ost S) {struct t} : res (ost S) :=
    match t, v with
    (* to_bin.hpp:160-163 *)
    | TInt _ n, VInt z => owrite S s (le_bytes n z)
    | TFloat n, VFloat _ b => owrite S s (le_bytes n b)
    | TBool, VBool b => owrite S s [if b then 1 else 0]
    (* varint.hpp:217-220, 432-435 *)
    | TVaruint32, VInt z => varuint32_to_bin S z s
    | TVarint32, VInt z => varint32_to_bin S z s
    (* to_bin.hpp:52-61 string, :115-119 input_stream *)
    | TString, VStr b
    | TStream, VStr b =>
        let* s := varuint32_to_bin S (Z.of_nat (List.length b)) s in owrite S s b
    (* to_bin.hpp:83-93 vector, :71-81 T[N] *)
    | TVec t', VList l =>
        let* s := varuint32_to_bin S (Z.of_nat (List.length l)) s in
        match bitwise_size t' with
        | Some _ => let* b := raws t' l in owrite S s b
        | None => write_seq (to_bin_with S ref t') l s
        end
    | TCArr n t', VList l =>
        let* s := varuint32_to_bin S (Z.of_nat n) s in
        match bitwise_size t' with
        | Some _ => let* b := raws t' l in owrite S s b
        | None => write_seq (to_bin_with S ref t') l s
        end
    (* to_bin.hpp:63-69, 95-108 to_bin_range *)
    | TSeq t', VList l
    | TSet t', VList l =>
        let* s := varuint32_to_bin S (Z.of_nat (List.length l)) s in
        write_seq (to_bin_with S ref t') l s
    (* to_bin.hpp:110-113 map, 121-125 pair *)
    | TMap k t', VList l =>
        let* s := varuint32_to_bin S (Z.of_nat (List.length l)) s in
        write_pairs (to_bin_with S ref k) (to_bin_with S ref t') l s
    (* to_bin.hpp:153-158 std::array *)
    | TArr _ t', VList l => write_seq (to_bin_with S ref t') l s
    (* to_bin.hpp:127-132 *)
    | TOpt _, VOpt None => owrite S s [0]
    | TOpt t', VOpt (Some x) => let* s := owrite S s [1] in to_bin_with S ref t' x s
    (* to_bin.hpp:134-138 *)
    | TVariant ts, VVar i x =>
        let* s := varuint32_to_bin S i s in
        match nthz (map (to_bin_with S ref) ts) i with
        | Some f => f x s
        | None => Undef "ill-typed value"
        end
    (* to_bin.hpp:140-151 tuple, 164-168 reflected struct *)
    | TTuple ts, VList l => write_tuple (map (to_bin_with S ref) ts) l s
    (* abi.hpp:54-57 *)
    | TMaybe t', _ => to_bin_with S ref t' v s
    | TWrap _ t', _ => to_bin_with S ref t' v s
    | TRef n, _ => ref n v s
    | _, _ => Undef "ill-typed value"
    end.

(** [env] gives the definitions of recursive types; [fuel] bounds the C++ call
    depth through recursive types ([Undef "stack"] models stack exhaustion). *)
Fixpoint to_bin (S : ostream) (env : nat -> ty) (fuel : nat) : ty -> val -> ost S -> res (ost S) :=
  to_bin_with S (fun n v s =>
    match fuel with
    | O => Undef "stack"
    | Datatypes.S fuel' => to_bin S env fuel' (env n) v s
    end).

(** ** from_bin: include/eosio/from_bin.hpp:57-250.
    Decodes into a default constructed object ([T from_bin<T>(S&)], 252-257).
    Memory allocation is unlimited except that std::vector::resize throws
    std::length_error above max_size() = (2^63-1)/sizeof(T). *)
Definition default_val (t : ty) : res val :=
  match t with
  | TInt _ _ | TVaruint32 | TVarint32 => Ok (VInt 0)
  | TString | TStream => Ok (VStr [])
  | TVec _ | TSeq _ | TSet _ | TMap _ _ => Ok (VList [])
  | TOpt _ => Ok (VOpt None)
  | _ => Undef "default value not modelled"
  end.

(** include/eosio/from_bin.hpp:57-76, 79-115, 217-220 *)
Fixpoint read_list (f : istream -> res (val * istream)) (n : nat) (s : istream)
  : res (list val * istream) :=
  match n with
  | O => Ok ([], s)
  | S n' => let* (x, s) := f s in let* (l, s) := read_list f n' s in Ok (x :: l, s)
  end.
(** [v.emplace(elem)] for each element read, in reading order. (The code reads
    and emplaces alternately; here all elements are read first, which only
    differs when a NaN key is followed by a read error.) *)
Fixpoint emplace_all (key : val -> val) (l acc : list val) : res (list val) :=
  match l with
  | [] => Ok acc
  | x :: l' => if has_nan (key x) then Undef "NaN in std::set/std::map key"
               else emplace_all key l' (set_emplace key x acc)
  end.

(** include/eosio/from_bin.hpp:223-234 *)
Fixpoint read_tuple (fs : list (istream -> res (val * istream))) (s : istream)
  : res (list val * istream) :=
  match fs with
  | [] => Ok ([], s)
  | f :: fs' => let* (x, s) := f s in let* (l, s) := read_tuple fs' s in Ok (x :: l, s)
  end.

(** include/eosio/from_bin.hpp:57-250 *)
Fixpoint from_bin_with (ref : nat -> istream -> res (val * istream)) (t : ty) (s : istream)
  {struct t} : res (val * istream) :=
    match t with
    (* from_bin.hpp:236-239 *)
    | TInt _ n | TFloat n =>
        let* (b, s) := sread s (Z.of_nat n) in Ok (of_raw t b, s)
    | TBool =>
        let* (b, s) := read_u8 s in
        if b =? 0 then Ok (VBool false, s)
        else if b =? 1 then Ok (VBool true, s)
        else Undef "bool object with a representation other than 0 or 1"
    | TVaruint32 => let* (z, s) := varuint32_from_bin s in Ok (VInt z, s)
    | TVarint32 => let* (z, s) := varint32_from_bin s in Ok (VInt z, s)
    (* from_bin.hpp:167-181 *)
    | TString =>
        let* (n, s) := varuint32_from_bin s in
        let* (b, s) := sread s n in Ok (VStr b, s)
    (* from_bin.hpp:144-159 *)
    | TStream =>
        let* (n, s) := varuint64_from_bin s in
        let* _ := check_available s n in
        let* (b, s) := sread s n in Ok (VStr b, s)
    (* from_bin.hpp:92-116 *)
    | TVec t' =>
        match bitwise_size t' with
        | Some w =>
            let* (n, s) := varuint64_from_bin s in
            let total := (n * Z.of_nat w) mod 2 ^ 64 in
            let* _ := check_available s total in
            let* _ := check (n <=? (2 ^ 63 - 1) / Z.of_nat w) E_length_error in
            let* (b, s) := sread s total in
            Ok (VList (cut t' w (Z.to_nat n) b), s)
        | None =>
            let* (n, s) := varuint32_from_bin s in
            let* (l, s) := read_list (from_bin_with ref t') (Z.to_nat n) s in Ok (VList l, s)
        end
    (* from_bin.hpp:78-90 *)
    | TCArr m t' =>
        let* (n, s) := varuint32_from_bin s in
        let* _ := check (n =? Z.of_nat m) E_array_size_mismatch in
        match bitwise_size t' with
        | Some w =>
            let* (b, s) := sread s (n * Z.of_nat w) in
            Ok (VList (cut t' w m b), s)
        | None => let* (l, s) := read_list (from_bin_with ref t') m s in Ok (VList l, s)
        end
    (* from_bin.hpp:68-76, 134-142 *)
    | TSeq t' =>
        let* (n, s) := varuint32_from_bin s in
        let* (l, s) := read_list (from_bin_with ref t') (Z.to_nat n) s in Ok (VList l, s)
    (* from_bin.hpp:57-66, 118-132 *)
    | TSet t' =>
        let* (n, s) := varuint32_from_bin s in
        let* (l, s) := read_list (from_bin_with ref t') (Z.to_nat n) s in
        let* l := emplace_all id_key l [] in Ok (VList l, s)
    | TMap k t' =>
        let* (n, s) := varuint32_from_bin s in
        let* (l, s) := read_list (fun s => let* (x, s) := from_bin_with ref k s in
                                           let* (y, s) := from_bin_with ref t' s in
                                           Ok (VList [x; y], s)) (Z.to_nat n) s in
        let* l := emplace_all pair_key l [] in Ok (VList l, s)
    (* from_bin.hpp:216-221 *)
    | TArr n t' => let* (l, s) := read_list (from_bin_with ref t') n s in Ok (VList l, s)
    (* from_bin.hpp:183-193 *)
    | TOpt t' =>
        let* (b, s) := read_u8 s in
        if b =? 0 then Ok (VOpt None, s)
        else if b =? 1 then let* (x, s) := from_bin_with ref t' s in Ok (VOpt (Some x), s)
        else Undef "bool object with a representation other than 0 or 1"
    (* from_bin.hpp:195-214 *)
    | TVariant ts =>
        let* (i, s) := varuint32_from_bin s in
        match nthz (map (from_bin_with ref) ts) i with
        | Some f => let* (x, s) := f s in Ok (VVar i x, s)
        | None => Err E_bad_variant_index
        end
    (* from_bin.hpp:223-234 tuple, 240-243 struct *)
    | TTuple ts =>
        let* (l, s) := read_tuple (map (from_bin_with ref) ts) s in Ok (VList l, s)
    (* abi.hpp:48-52 *)
    | TMaybe t' => match s with
                   | [] => let* d := default_val t' in Ok (d, s)
                   | _ :: _ => from_bin_with ref t' s
                   end
    | TWrap _ t' => from_bin_with ref t' s
    | TRef n => ref n s
    end.

(** include/eosio/from_bin.hpp:57-257, through recursive types; [fuel] as for [to_bin]. *)
Fixpoint from_bin (env : nat -> ty) (fuel : nat) : ty -> istream -> res (val * istream) :=
  from_bin_with (fun n s =>
    match fuel with
    | O => Undef "stack"
    | S fuel' => from_bin env fuel' (env n) s
    end).

(** ** convert_to_bin: include/eosio/to_bin.hpp:171-187. [bin] is the vector
    appended to. (With the vector as an object, also after an exception:
    [StreamMem.convert_to_bin_into].) *)
Definition convert_to_bin (env : nat -> ty) (fuel : nat) (t : ty) (v : val) (bin : bytes) : res bytes :=
  let* size := to_bin size_stream env fuel t v 0%nat in
  let* (d, room) := to_bin fixed_buf_stream env fuel t v ([], size) in
  let* _ := check (Nat.eqb room 0) E_underrun in
  Ok (bin ++ d).
(** include/eosio/from_bin.hpp:259-270 [convert_from_bin]: bytes left over are ignored. *)
Definition convert_from_bin (env : nat -> ty) (fuel : nat) (t : ty) (bin : bytes) : res val :=
  let* (v, _) := from_bin env fuel t bin in Ok v.
