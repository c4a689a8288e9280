(** * DecodeInto: [void from_bin(T& obj, S& stream)] on an object which already has a value,
    include/eosio/from_bin.hpp. The model in TypedBin.v is the case of a fresh object. Here the object after
    the call is part of the result also when the call throws. *)
From Verif Require Import Base Stream TypedBin.

(** The object after the call; [Ok]: the rest of the stream, [Err]: the exception thrown. *)
Definition into := (val * res istream)%type.

(** ** Default construction ([v.resize], [emplace_back()], [emplace()], local variables). Numbers are value
    initialized. (The local variables of from_bin_assoc and of the map overload, lines 61 and 128, are not,
    but are dropped unread if reading them fails.) [d] has the defaults of the recursive types. *)
Fixpoint fresh_with (d : nat -> val) (t : ty) {struct t} : val :=
  match t with
  | TInt _ _ | TVaruint32 | TVarint32 => VInt 0
  | TBool => VBool false
  | TFloat n => VFloat n 0
  | TString | TStream => VStr []
  | TVec _ | TSeq _ | TSet _ | TMap _ _ => VList []
  | TArr n t' | TCArr n t' => VList (repeat (fresh_with d t') n)
  | TOpt _ => VOpt None
  | TVariant ts => VVar 0 (hd (VList []) (map (fresh_with d) ts))
  | TTuple ts => VList (map (fresh_with d) ts)
  | TMaybe t' | TWrap _ t' => fresh_with d t'
  | TRef n => d n
  end.

(** std::vector::resize, std::string::resize *)
Definition resize {A} (x : A) (n : nat) (l : list A) : list A := firstn n l ++ repeat x (n - List.length l).

(** ** The loops *)
(** from_bin.hpp:85-87, 112-114, 218-220: each element in place *)
Fixpoint fill (f : val -> istream -> into) (l : list val) (s : istream) : list val * res istream :=
  match l with
  | [] => ([], Ok s)
  | x :: l' => match f x s with
               | (x, Ok s) => let (l', r) := fill f l' s in (x :: l', r)
               | (x, r) => (x :: l', r)
               end
  end.
(** from_bin.hpp:223-229, 241-243: each member in place *)
Fixpoint fill_members (fs : list (val -> istream -> into)) (l : list val) (s : istream) : list val * res istream :=
  match fs, l with
  | [], [] => ([], Ok s)
  | f :: fs', x :: l' => match f x s with
                         | (x, Ok s) => let (l', r) := fill_members fs' l' s in (x :: l', r)
                         | (x, r) => (x :: l', r)
                         end
  | _, _ => (l, Undef "ill-typed value")
  end.
(** from_bin.hpp:68-76 from_bin_sequence: the element is in the list before it is read *)
Fixpoint append (f : istream -> into) (n : nat) (l : list val) (s : istream) : list val * res istream :=
  match n with
  | O => (l, Ok s)
  | S n' => match f s with
            | (x, Ok s) => append f n' (l ++ [x]) s
            | (x, r) => (l ++ [x], r)
            end
  end.
(** from_bin.hpp:57-66 from_bin_assoc, 123-132: the element is emplaced after it was read *)
Fixpoint emplace (key : val -> val) (f : istream -> into) (n : nat) (l : list val) (s : istream) : list val * res istream :=
  match n with
  | O => (l, Ok s)
  | S n' => match f s with
            | (x, Ok s) => if has_nan (key x) then (l, Undef "NaN in std::set/std::map key")
                           else emplace key f n' (set_emplace key x l) s
            | (_, r) => (l, r)
            end
  end.
(** from_bin.hpp:161-165 pair *)
Definition pair_into (f g : istream -> into) (s : istream) : into :=
  match f s with
  | (x, Ok s) => let (y, r) := g s in (VList [x; y], r)
  | (x, r) => (x, r)
  end.
(** Representation: the members of include/eosio/from_bin.hpp:161-165, 223-234 as one value. *)
Definition as_list (p : list val * res istream) : into := (VList (fst p), snd p).

(** The destination of varuint32_from_bin, from_bin.hpp:21-32, when it throws: what was read so far. *)
Fixpoint dest_loop (fuel : nat) (dest shift : Z) (s : istream) : Z :=
  match fuel, s with
  | S fuel', b :: s' =>
      if shift <? 35 then
        let dest' := Z.lor dest (Z.shiftl (Z.land b 127) shift mod 2 ^ 32) in
        if negb (Z.land b 128 =? 0) then dest_loop fuel' dest' (shift + 7) s' else dest'
      else dest
  | _, _ => dest
  end.
(** A length is read into a local variable; the object changes after that. *)
Definition with_length (read : istream -> res (Z * istream)) (old : val) (k : Z -> istream -> into) (s : istream) : into :=
  match read s with Ok (n, s) => k n s | Err e => (old, Err e) | Undef w => (old, Undef w) end.
(** from_bin.hpp:236-239: stream.read checks before it copies. *)
Definition read_raw (old : val) (n : Z) (k : bytes -> val) (s : istream) : into :=
  match sread s n with Ok (b, s) => (k b, Ok s) | Err e => (old, Err e) | Undef w => (old, Undef w) end.

(** include/eosio/from_bin.hpp:57-250 *)
Fixpoint from_bin_into_with (d : nat -> val) (ref : nat -> val -> istream -> into) (t : ty) (old : val) (s : istream) {struct t} : into :=
  let elem t' := from_bin_into_with d ref t' (fresh_with d t') in
  match t, old with
  (* from_bin.hpp:239 *)
  | TInt _ n, VInt _ => read_raw old (Z.of_nat n) (of_raw t) s
  | TFloat n, VFloat _ _ => read_raw old (Z.of_nat n) (of_raw t) s
  | TBool, VBool _ =>
      match s with
      | [] => (old, Err E_overrun)
      | b :: s => if b =? 0 then (VBool false, Ok s) else if b =? 1 then (VBool true, Ok s)
                  else (old, Undef "bool object with a representation other than 0 or 1")
      end
  (* varint.hpp:212-215: straight into the object *)
  | TVaruint32, VInt _ =>
      match varuint32_from_bin s with
      | Ok (z, s) => (VInt z, Ok s)
      | Err e => (VInt (dest_loop 12 0 0 s), Err e)
      | Undef w => (old, Undef w)
      end
  (* varint.hpp:427-430, from_bin.hpp:47-55: through a local variable *)
  | TVarint32, VInt _ => with_length varint32_from_bin old (fun z s => (VInt z, Ok s)) s
  (* from_bin.hpp:167-173 *)
  | TString, VStr b =>
      with_length varuint32_from_bin old (fun n s => read_raw (VStr (resize 0 (Z.to_nat n) b)) n VStr s) s
  (* from_bin.hpp:144-159 *)
  | TStream, VStr _ =>
      with_length varuint64_from_bin old (fun n s =>
        match check_available s n with Ok _ => read_raw old n VStr s | Err e => (old, Err e) | Undef w => (old, Undef w) end) s
  (* from_bin.hpp:92-116 *)
  | TVec t', VList l =>
      match bitwise_size t' with
      | Some w =>
          with_length varuint64_from_bin old (fun n s =>
            let total := (n * Z.of_nat w) mod 2 ^ 64 in
            match check_available s total with
            | Ok _ => if n <=? (2 ^ 63 - 1) / Z.of_nat w
                      then read_raw (VList (resize (fresh_with d t') (Z.to_nat n) l)) total (fun b => VList (cut t' w (Z.to_nat n) b)) s
                      else (old, Err E_length_error)
            | Err e => (old, Err e)
            | Undef w => (old, Undef w)
            end) s
      | None =>
          with_length varuint32_from_bin old (fun n s =>
            as_list (fill (from_bin_into_with d ref t') (resize (fresh_with d t') (Z.to_nat n) l) s)) s
      end
  (* from_bin.hpp:78-90 *)
  | TCArr m t', VList l =>
      with_length varuint32_from_bin old (fun n s =>
        if n =? Z.of_nat m then
          match bitwise_size t' with
          | Some w => read_raw old (n * Z.of_nat w) (fun b => VList (cut t' w m b)) s
          | None => as_list (fill (from_bin_into_with d ref t') l s)
          end
        else (old, Err E_array_size_mismatch)) s
  (* from_bin.hpp:134-142 *)
  | TSeq t', VList l => with_length varuint32_from_bin old (fun n s => as_list (append (elem t') (Z.to_nat n) l s)) s
  (* from_bin.hpp:118-132 *)
  | TSet t', VList l => with_length varuint32_from_bin old (fun n s => as_list (emplace id_key (elem t') (Z.to_nat n) l s)) s
  | TMap k t', VList l =>
      with_length varuint32_from_bin old (fun n s => as_list (emplace pair_key (pair_into (elem k) (elem t')) (Z.to_nat n) l s)) s
  (* from_bin.hpp:216-221 *)
  | TArr _ t', VList l => as_list (fill (from_bin_into_with d ref t') l s)
  (* from_bin.hpp:183-193 *)
  | TOpt t', VOpt _ =>
      match s with
      | [] => (old, Err E_overrun)
      | b :: s => if b =? 0 then (VOpt None, Ok s)
                  else if b =? 1 then let (x, r) := elem t' s in (VOpt (Some x), r)
                  else (old, Undef "bool object with a representation other than 0 or 1")
      end
  (* from_bin.hpp:195-214 *)
  | TVariant ts, VVar _ _ =>
      with_length varuint32_from_bin old (fun i s =>
        match nthz (map elem ts) i with
        | Some f => let (x, r) := f s in (VVar i x, r)
        | None => (old, Err E_bad_variant_index)
        end) s
  (* from_bin.hpp:223-234, 240-243 *)
  | TTuple ts, VList l => as_list (fill_members (map (from_bin_into_with d ref) ts) l s)
  (* abi.hpp:48-52 *)
  | TMaybe t', _ => match s with [] => (old, Ok []) | _ :: _ => from_bin_into_with d ref t' old s end
  | TWrap _ t', _ => from_bin_into_with d ref t' old s
  | TRef n, _ => ref n old s
  | _, _ => (old, Undef "ill-typed value")
  end.
(** [env], [fuel]: as in TypedBin.v. *)
Fixpoint from_bin_into (env : nat -> ty) (d : nat -> val) (fuel : nat) : ty -> val -> istream -> into :=
  from_bin_into_with d (fun n v s =>
    match fuel with
    | O => (v, Undef "stack")
    | S fuel' => from_bin_into env d fuel' (env n) v s
    end).
