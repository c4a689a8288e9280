(** * MurmurSpec: the published hash function MurmurHash64A (specification for C59)

    Austin Appleby's MurmurHash64A for little endian machines; libstdc++'s std::hash of strings on 64-bit
    machines is this function with seed 0xc70f6907. *)
From Verif Require Import Base.

Definition hash_m : Z := 0xc6a4a7935bd1e995.
Definition times_m (z : Z) : Z := (z * hash_m) mod 2 ^ 64.
Definition fold47 (z : Z) : Z := Z.lxor z (z / 2 ^ 47).

(** Blocks of eight bytes, the lowest byte first, and the rest of less than eight bytes. *)
Fixpoint hash_blocks (s : bytes) (h : Z) : Z :=
  match s with
  | a :: b :: c :: d :: e :: f :: g :: i :: s' =>
      hash_blocks s' (times_m (Z.lxor h (times_m (fold47 (times_m (le_val [a; b; c; d; e; f; g; i]))))))
  | [] => h
  | rest => times_m (Z.lxor h (le_val rest))
  end.
Definition MurmurHash64A (seed : Z) (s : bytes) : Z :=
  fold47 (times_m (fold47 (hash_blocks s (Z.lxor seed (times_m (Z.of_nat (List.length s))))))).

(** std::hash of libstdc++ *)
Example known_hashes :
  MurmurHash64A 0xc70f6907 (str "hello") = 2762169579135187400 /\
  MurmurHash64A 0xc70f6907 (str "hello world, this") = 12267034846077242892.
Proof. split; reflexivity. Qed.

(** ** How the library's version sees a text
    Of every block of eight bytes the first is lost and the others come in the opposite order. A byte from 128 on
    also makes all bytes before it in its block 255. *)
Fixpoint covered (p : bytes) : bytes :=
  match p with
  | [] => []
  | c :: p' => (if existsb (fun x => 128 <=? x) p' then 255 else c) :: covered p'
  end.
Fixpoint as_seen (s : bytes) : bytes :=
  match s with
  | a :: b :: c :: d :: e :: f :: g :: i :: s' => 0 :: rev (covered [b; c; d; e; f; g; i]) ++ as_seen s'
  | rest => rest
  end.
