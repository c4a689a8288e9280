(** * RIPEMD-160 as published (Dobbertin, Bosselaers, Preneel 1996; Handbook of
    Applied Cryptography, Algorithm 9.55). Written without looking at the
    code's tables: message word selection from rho and pi, amounts of rotation
    in the published per-word table, constants as roots. *)
From Verif Require Import Base.

Definition word_mod : Z := 4294967296.
Definition plus32 (a b : Z) : Z := (a + b) mod word_mod.
Definition compl32 (a : Z) : Z := 4294967295 - a.
Definition rol (s x : Z) : Z := Z.lor (Z.shiftl x s mod word_mod) (Z.shiftr x (32 - s)).

(** The permutations. *)
Definition rho (i : nat) : nat := nth i [7; 4; 13; 1; 10; 6; 15; 3; 12; 0; 9; 5; 2; 14; 11; 8]%nat 0%nat.
Definition pi (i : nat) : nat := ((9 * i + 5) mod 16)%nat.
Definition r_left (j : nat) : nat := Nat.iter (j / 16) rho (j mod 16)%nat.
Definition r_right (j : nat) : nat := Nat.iter (j / 16) rho (pi (j mod 16)).
(** Rotation for message word X[i] in round k, both lines. *)
Definition shift_table : list (list Z) :=
  [[11; 14; 15; 12; 5; 8; 7; 9; 11; 13; 14; 15; 6; 7; 9; 8];
   [12; 13; 11; 15; 6; 9; 9; 7; 12; 15; 11; 13; 7; 8; 7; 7];
   [13; 15; 14; 11; 7; 7; 6; 8; 13; 14; 13; 12; 5; 5; 6; 9];
   [14; 11; 12; 14; 8; 6; 5; 5; 15; 12; 15; 14; 9; 9; 8; 6];
   [15; 12; 13; 13; 9; 5; 8; 6; 14; 11; 12; 11; 8; 6; 5; 5]].
Definition shift_of (round word : nat) : Z := nth word (nth round shift_table []) 0.
(** The functions f of the left line; the right line uses them in reverse order. *)
Definition f (j : nat) (x y z : Z) : Z :=
  match (j / 16)%nat with
  | 0%nat => Z.lxor (Z.lxor x y) z
  | 1%nat => Z.lor (Z.land x y) (Z.land (compl32 x) z)
  | 2%nat => Z.lxor (Z.lor x (compl32 y)) z
  | 3%nat => Z.lor (Z.land x z) (Z.land y (compl32 z))
  | _ => Z.lxor x (Z.lor y (compl32 z))
  end.
(** Integer parts of 2^30 times the square roots of 2, 3, 5, 7 and of their cube roots. *)
Definition sqrt30 (p : Z) : Z := Z.sqrt (p * 2 ^ 60).
Definition is_cbrt30 (p k : Z) : Prop := k * k * k <= p * 2 ^ 90 < (k + 1) * (k + 1) * (k + 1).
Definition K_left (j : nat) : Z := nth (j / 16) [0; sqrt30 2; sqrt30 3; sqrt30 5; sqrt30 7] 0.
Definition K_right (j : nat) : Z := nth (j / 16) [0x50A28BE6; 0x5C4DD124; 0x6D703EF3; 0x7A6D76E9; 0] 0.

Definition words : Type := (Z * Z * Z * Z * Z)%type.
(** One step with function value, rotation, message word and constant. *)
Definition step (fj : Z -> Z -> Z -> Z) (s x k : Z) (v : words) : words :=
  let '(A, B, C, D, E) := v in
  (E, plus32 (rol s (plus32 (plus32 (plus32 A (fj B C D)) x) k)) E, B, rol 10 C, D).
(** Message words of a 64 byte block. *)
Definition X (block : bytes) (i : nat) : Z := le_val (firstn 4 (skipn (4 * i) block)).
Definition steps (block : bytes) (v : words * words) : words * words :=
  fold_left (fun (v : words * words) j =>
      (step (f j) (shift_of (j / 16) (r_left j)) (X block (r_left j)) (K_left j) (fst v),
       step (f (79 - j)) (shift_of (j / 16) (r_right j)) (X block (r_right j)) (K_right j) (snd v)))
    (seq 0 80) v.
Definition compress (h : words) (block : bytes) : words :=
  let '(h0, h1, h2, h3, h4) := h in
  let '((A, B, C, D, E), (A', B', C', D', E')) := steps block (h, h) in
  (plus32 (plus32 h1 C) D', plus32 (plus32 h2 D) E', plus32 (plus32 h3 E) A', plus32 (plus32 h4 A) B', plus32 (plus32 h0 B) C').
Definition IV : words := (0x67452301, 0xEFCDAB89, 0x98BADCFE, 0x10325476, 0xC3D2E1F0).

(** Padding: 0x80, zeros up to 56 modulo 64 bytes, the number of bits in 8 bytes. *)
Definition pad (m : bytes) : bytes :=
  m ++ [128] ++ repeat 0 (Z.to_nat ((55 - Z.of_nat (List.length m)) mod 64)) ++
  le_bytes 8 ((8 * Z.of_nat (List.length m)) mod 2 ^ 64).
Fixpoint blocks (n : nat) (m : bytes) : list bytes :=
  match n with O => [] | S n' => firstn 64 m :: blocks n' (skipn 64 m) end.
Definition output (h : words) : bytes :=
  let '(h0, h1, h2, h3, h4) := h in
  le_bytes 4 h0 ++ le_bytes 4 h1 ++ le_bytes 4 h2 ++ le_bytes 4 h3 ++ le_bytes 4 h4.
Definition RIPEMD160 (m : bytes) : bytes :=
  let p := pad m in output (fold_left compress (blocks (List.length p / 64) p) IV).
