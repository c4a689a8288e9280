(** The streams of include/eosio/stream.hpp as objects in memory: pointers, the bytes behind them, and what is left when an operation throws and
    the exception is caught. [Stream] has them as functions that end with the first failure. *)
From Verif Require Import Base Stream TypedBin ToKey.

(** Memory: address to byte. Addresses and sizes are below 2^64 and pointer arithmetic is modulo 2^64 (in C++ it is undefined outside the buffer). *)
Definition memory := Z -> Z.
(** memcpy, or an assignment through a char pointer: include/eosio/stream.hpp:98, 103. The source does not overlap. *)
Definition store (m : memory) (a : Z) (l : bytes) : memory :=
  fun x => if (a <=? x) && (x <? a + Z.of_nat (List.length l)) then nth (Z.to_nat (x - a)) l 0 else m x.
(** [n] bytes from address [a]: what memcpy reads at include/eosio/stream.hpp:210. *)
Fixpoint load (m : memory) (a : Z) (n : nat) : bytes :=
  match n with O => [] | S n' => m a :: load m (a + 1) n' end.

(** include/eosio/stream.hpp:90-94 fixed_buf_stream, with the memory its pointers point into *)
Record obuf := Buf { mem : memory; opos : Z; oend : Z }.
(** include/eosio/stream.hpp:96-99 *)
Definition write_char (c : Z) (b : obuf) : res unit * obuf :=
  if opos b <? oend b then (Ok tt, Buf (store (mem b) (opos b) [c]) ((opos b + 1) mod 2 ^ 64) (oend b)) else (Err E_overrun, b).
(** include/eosio/stream.hpp:101-105, and 107-115 which call it *)
Definition write_block (l : bytes) (b : obuf) : res unit * obuf :=
  let p := (opos b + Z.of_nat (List.length l)) mod 2 ^ 64 in
  if p <=? oend b then (Ok tt, Buf (store (mem b) (opos b) l) p (oend b)) else (Err E_overrun, b).
(** The writes of a stream: include/eosio/stream.hpp:96-115 *)
Inductive wop := WChar (c : Z) | WBlock (l : bytes).
(** include/eosio/stream.hpp:96-115 *)
Definition write_op (o : wop) (b : obuf) : res unit * obuf := match o with WChar c => write_char c b | WBlock l => write_block l b end.
(** Writes one after the other, failures caught. *)
Fixpoint write_ops (l : list wop) (b : obuf) : list (res unit) * obuf :=
  match l with
  | [] => ([], b)
  | o :: l' => let (r, b) := write_op o b in let (rs, b) := write_ops l' b in (r :: rs, b)
  end.
(** include/eosio/stream.hpp:73-88 vector_stream *)
Definition vector_op (o : wop) (d : bytes) : bytes := match o with WChar c => d ++ [c] | WBlock l => d ++ l end.
(** include/eosio/stream.hpp:118-138 size_stream; size is a size_t *)
Definition size_op (o : wop) (n : Z) : Z := match o with WChar _ => (n + 1) mod 2 ^ 64 | WBlock l => (n + Z.of_nat (List.length l)) mod 2 ^ 64 end.

(** fixed_buf_stream as the stream of a writer template such as to_bin (include/eosio/to_bin.hpp): the first failing
    write throws, so that nothing is written after it; [Some e] is the exception on its way.
    (A template which itself throws has no result here.) *)
Definition mem_stream : ostream :=
  {| ost := obuf * option error;
     owrite := fun '(b, x) l =>
       match x with
       | Some _ => Ok (b, x)
       | None => match write_block l b with
                 | (Err e, b) => Ok (b, Some e)
                 | (_, b) => Ok (b, None)
                 end
       end |}.

(** include/eosio/to_bin.hpp:171-180 convert_to_bin(t, bin) and include/eosio/to_key.hpp:280-289 convert_to_key(t, bin), [f] being to_bin or to_key of [t]; and
    what is in [bin] when it returns or throws: the vector is resized between the passes
    and written to through pointers into it (here its first byte is at address 0). What is there if the second pass throws something of its own is not followed. *)
Definition two_passes (f : forall S : ostream, ost S -> res (ost S)) (bin : bytes) : res unit * bytes :=
  match f size_stream 0%nat with
  | Err e => (Err e, bin)
  | Undef w => (Undef w, bin)
  | Ok size =>
      let resized := bin ++ repeat 0 size in
      let orig_size := Z.of_nat (List.length bin) in
      match f mem_stream (Buf (fun x => nth (Z.to_nat x) resized 0) orig_size (orig_size + Z.of_nat size), None) with
      | Ok (b, x) =>
          (match x with Some e => Err e | None => if opos b =? oend b then Ok tt else Err E_underrun end,
           load (mem b) 0 (List.length resized))
      | _ => (Undef "the vector after an exception in the second pass", bin)
      end
  end.
(** include/eosio/to_bin.hpp:171-180 *)
Definition convert_to_bin_into (env : nat -> ty) (fuel : nat) (t : ty) (v : val) : bytes -> res unit * bytes := two_passes (fun S => to_bin S env fuel t v).
(** include/eosio/to_key.hpp:280-289 *)
Definition convert_to_key_into (env : nat -> ty) (fuel : nat) (t : ty) (v : val) : bytes -> res unit * bytes := two_passes (fun S => to_key env fuel t S v).

(** include/eosio/stream.hpp:187-198 input_stream; the memory is not changed by it *)
Record ibuf := IBuf { ipos : Z; iend : Z }.
(** include/eosio/stream.hpp:200: a difference of pointers, as a size_t *)
Definition remaining (b : ibuf) : Z := (iend b - ipos b) mod 2 ^ 64.
(** The calls: include/eosio/stream.hpp:200-228; read_raw is read. *)
Inductive rop := Remaining | CheckAvailable (n : Z) | GetPos | Read (n : Z) | Skip (n : Z) | ReuseStorage (n : Z).
(** What they give: nothing, a number, an address, bytes. *)
Inductive given := Nothing | Count (n : Z) | Address (a : Z) | Copied (l : bytes).
(** include/eosio/stream.hpp:200-228 *)
Definition read_op (m : memory) (o : rop) (b : ibuf) : res given * ibuf :=
  let if_fits (n : Z) (r : given * ibuf) := if n <=? remaining b then (Ok (fst r), snd r) else (Err E_overrun, b) in
  let advanced (n : Z) := IBuf ((ipos b + n) mod 2 ^ 64) (iend b) in
  match o with
  | Remaining => (Ok (Count (remaining b)), b)
  | CheckAvailable n => if_fits n (Nothing, b)
  | GetPos => (Ok (Address (ipos b)), b)
  | Read n => if_fits n (Copied (load m (ipos b) (Z.to_nat n)), advanced n)
  | Skip n => if_fits n (Nothing, advanced n)
  | ReuseStorage n => if_fits n (Address (ipos b), advanced n)
  end.
(** Reads one after the other, failures caught. *)
Fixpoint read_ops (m : memory) (l : list rop) (b : ibuf) : list (res given) * ibuf :=
  match l with
  | [] => ([], b)
  | o :: l' => let (r, b) := read_op m o b in let (rs, b) := read_ops m l' b in (r :: rs, b)
  end.
