(** * RIPEMD-160: include/eosio/abieos_ripemd160.hpp and
    src/crypto.cpp:85-94 [digest_suffix_ripemd160]. *)
From Verif Require Import Base.

(** uint32_t arithmetic. *)
Definition w32 (x : Z) : Z := x mod 4294967296.
(** uint32_t ~. *)
Definition not32 (x : Z) : Z := 4294967295 - x.
(** abieos_ripemd160.hpp:69-70 [ROL] on uint32_t *)
Definition ROL (s n : Z) : Z := Z.lor (w32 (Z.shiftl n s)) (Z.shiftr n (32 - s)).

(** abieos_ripemd160.hpp:72-74 [initial_h] *)
Definition initial_h : list Z := [0x67452301; 0xEFCDAB89; 0x98BADCFE; 0x10325476; 0xC3D2E1F0].
(** abieos_ripemd160.hpp:89-96 [RL] *)
Definition RL : list (list nat) :=
  [[0; 1; 2; 3; 4; 5; 6; 7; 8; 9; 10; 11; 12; 13; 14; 15];
   [7; 4; 13; 1; 10; 6; 15; 3; 12; 0; 9; 5; 2; 14; 11; 8];
   [3; 10; 14; 4; 9; 15; 8; 1; 2; 7; 0; 6; 13; 11; 5; 12];
   [1; 9; 11; 10; 0; 8; 12; 4; 13; 3; 7; 15; 14; 5; 6; 2];
   [4; 0; 5; 9; 7; 12; 2; 10; 14; 1; 3; 8; 11; 6; 15; 13]]%nat.
(** abieos_ripemd160.hpp:98-105 [RR] *)
Definition RR : list (list nat) :=
  [[5; 14; 7; 0; 9; 2; 11; 4; 13; 6; 15; 8; 1; 10; 3; 12];
   [6; 11; 3; 7; 0; 13; 5; 10; 14; 15; 8; 12; 4; 9; 1; 2];
   [15; 5; 1; 3; 7; 14; 6; 9; 11; 8; 12; 2; 10; 0; 4; 13];
   [8; 6; 4; 1; 3; 11; 15; 0; 5; 12; 2; 13; 9; 7; 10; 14];
   [12; 15; 10; 4; 1; 5; 8; 7; 6; 2; 13; 14; 0; 3; 9; 11]]%nat.
(** abieos_ripemd160.hpp:113-120 [SL] *)
Definition SL : list (list Z) :=
  [[11; 14; 15; 12; 5; 8; 7; 9; 11; 13; 14; 15; 6; 7; 9; 8];
   [7; 6; 8; 13; 11; 9; 7; 15; 7; 12; 15; 9; 11; 7; 13; 12];
   [11; 13; 6; 7; 14; 9; 13; 15; 14; 8; 13; 6; 5; 12; 7; 5];
   [11; 12; 14; 15; 14; 15; 9; 8; 9; 14; 5; 6; 8; 6; 5; 12];
   [9; 15; 5; 11; 6; 8; 13; 12; 5; 12; 13; 14; 11; 8; 5; 6]].
(** abieos_ripemd160.hpp:122-129 [SR] *)
Definition SR : list (list Z) :=
  [[8; 9; 9; 11; 13; 15; 15; 5; 7; 7; 8; 11; 14; 14; 12; 6];
   [9; 13; 15; 7; 12; 8; 9; 11; 7; 7; 12; 7; 6; 15; 13; 11];
   [9; 7; 15; 11; 8; 6; 6; 14; 12; 13; 5; 14; 13; 13; 7; 5];
   [15; 5; 8; 11; 14; 14; 6; 14; 6; 9; 12; 9; 12; 5; 15; 8];
   [8; 5; 12; 9; 12; 5; 14; 6; 8; 13; 6; 5; 15; 13; 11; 11]].
(** abieos_ripemd160.hpp:130-136, the macros F1..F5 *)
Definition F1 (x y z : Z) : Z := Z.lxor (Z.lxor x y) z.
(** include/eosio/abieos_ripemd160.hpp:133 *)
Definition F2 (x y z : Z) : Z := Z.lor (Z.land x y) (Z.land (not32 x) z).
(** include/eosio/abieos_ripemd160.hpp:134 *)
Definition F3 (x y z : Z) : Z := Z.lxor (Z.lor x (not32 y)) z.
(** include/eosio/abieos_ripemd160.hpp:135 *)
Definition F4 (x y z : Z) : Z := Z.lor (Z.land x z) (Z.land y (not32 z)).
(** include/eosio/abieos_ripemd160.hpp:136 *)
Definition F5 (x y z : Z) : Z := Z.lxor x (Z.lor y (not32 z)).
(** abieos_ripemd160.hpp:138-154 [KL], [KR] *)
Definition KL : list Z := [0x00000000; 0x5A827999; 0x6ED9EBA1; 0x8F1BBCDC; 0xA953FD4E].
(** include/eosio/abieos_ripemd160.hpp:147-154 *)
Definition KR : list Z := [0x50A28BE6; 0x5C4DD124; 0x6D703EF3; 0x7A6D76E9; 0x00000000].

(** abieos_ripemd160.hpp:57-68 [ripemd160_state]; the buffer is its 64 bytes, the word view
    [buf.w] is little endian as on the supported platforms. *)
Record rstate : Type := { magic : Z; hh : list Z; rlength : Z; buf : bytes; bufpos : nat }.
Definition ripemd160_magic : Z := 0x9f19dd68.
(** include/eosio/abieos_ripemd160.hpp:62-65 *)
Definition buf_w (b : bytes) (i : nat) : Z := le_val (firstn 4 (skipn (4 * i) b)).
(** Five chaining words of one line: A, B, C, D, E. *)
Definition line : Type := (Z * Z * Z * Z * Z)%type.

(** abieos_ripemd160.hpp:156-163 [ripemd160_init] *)
Definition ripemd160_init : rstate :=
  {| magic := ripemd160_magic; hh := initial_h; rlength := 0; buf := repeat 0 64; bufpos := 0 |}.
(** abieos_ripemd160.hpp:165-169 [ripemd160_wipe] *)
Definition ripemd160_wipe : rstate :=
  {| magic := 0; hh := repeat 0 5; rlength := 0; buf := repeat 0 64; bufpos := 0 |}.

(** The loop body shared by the ten loops in abieos_ripemd160.hpp:222-312. *)
Definition rstep (f : Z -> Z -> Z -> Z) (s x k : Z) (l : line) : line :=
  let '(A, B, C, D, E) := l in
  let T := w32 (ROL s (w32 (A + f B C D + x + k)) + E) in
  (E, T, B, ROL 10 C, D).
(** One of the loops [for (w = 0; w < 16; w++)]. *)
Definition rloop (f : Z -> Z -> Z -> Z) (S : list (list Z)) (R : list (list nat)) (K : list Z)
           (round : nat) (b : bytes) (l : line) : line :=
  fold_left (fun l w => rstep f (nth w (nth round S []) 0) (buf_w b (nth w (nth round R []) 0%nat)) (nth round K 0) l)
            (seq 0 16) l.
(** abieos_ripemd160.hpp:199-328 [ripemd160_compress] (with NDEBUG: the assertions in
    front of the explicit checks are not modelled). *)
Definition ripemd160_compress (s : rstate) : rstate :=
  if negb (magic s =? ripemd160_magic) || negb (Nat.eqb (bufpos s) 64) then ripemd160_wipe
  else
    let b := buf s in
    let h i := nth i (hh s) 0 in
    let L := (h 0, h 1, h 2, h 3, h 4)%nat in
    let R := L in
    let L := rloop F1 SL RL KL 0 b L in
    let R := rloop F5 SR RR KR 0 b R in
    let L := rloop F2 SL RL KL 1 b L in
    let R := rloop F4 SR RR KR 1 b R in
    let L := rloop F3 SL RL KL 2 b L in
    let R := rloop F3 SR RR KR 2 b R in
    let L := rloop F4 SL RL KL 3 b L in
    let R := rloop F2 SR RR KR 3 b R in
    let L := rloop F5 SL RL KL 4 b L in
    let R := rloop F1 SR RR KR 4 b R in
    let '(AL, BL, CL, DL, EL) := L in
    let '(AR, BR, CR, DR, ER) := R in
    let T := w32 (h 1%nat + CL + DR) in
    let h1 := w32 (h 2%nat + DL + ER) in
    let h2 := w32 (h 3%nat + EL + AR) in
    let h3 := w32 (h 4%nat + AL + BR) in
    let h4 := w32 (h 0%nat + BL + CR) in
    {| magic := magic s; hh := [T; h1; h2; h3; h4]; rlength := rlength s; buf := repeat 0 64; bufpos := 0 |}.

(** memcpy into a byte array at an offset. *)
Definition splice (b : bytes) (pos : nat) (d : bytes) : bytes :=
  firstn pos b ++ d ++ skipn (pos + List.length d) b.

(** abieos_ripemd160.hpp:347-370: the loop; one unit of fuel per iteration. *)
Fixpoint update_loop (fuel : nat) (s : rstate) (p : bytes) : rstate :=
  match fuel with
  | O => s
  | S fuel' =>
      match p with
      | [] => s
      | _ =>
          let needed := (64 - bufpos s)%nat in
          if Nat.leb needed (List.length p) then
            let s1 := {| magic := magic s; hh := hh s;
                         rlength := (rlength s + Z.of_nat needed * 8) mod 18446744073709551616;
                         buf := splice (buf s) (bufpos s) (firstn needed p);
                         bufpos := bufpos s + needed |} in
            update_loop fuel' (ripemd160_compress s1) (skipn needed p)
          else
            {| magic := magic s; hh := hh s;
               rlength := (rlength s + Z.of_nat (List.length p) * 8) mod 18446744073709551616;
               buf := splice (buf s) (bufpos s) p;
               bufpos := bufpos s + List.length p |}
      end
  end.
(** abieos_ripemd160.hpp:330-371 [ripemd160_update]; the length parameter is an int, to which
    the caller's size_t is converted. The data pointer is never null. *)
Definition ripemd160_update (s : rstate) (p : bytes) : rstate :=
  if negb (magic s =? ripemd160_magic) || (wrap_s 32 (Z.of_nat (List.length p)) <? 0) then ripemd160_wipe
  else update_loop (List.length p) s (firstn (Z.to_nat (wrap_s 32 (Z.of_nat (List.length p)))) p).

(** abieos_ripemd160.hpp:377-418 [ripemd160_digest]: None when 0 is returned. *)
Definition ripemd160_digest (self : rstate) : option bytes :=
  if negb (magic self =? ripemd160_magic) then None
  else
    let tmp := {| magic := magic self; hh := hh self; rlength := rlength self;
                  buf := splice (buf self) (bufpos self) [0x80]; bufpos := bufpos self + 1 |} in
    let tmp := if Nat.ltb 56 (bufpos tmp) then
                 ripemd160_compress {| magic := magic tmp; hh := hh tmp; rlength := rlength tmp; buf := buf tmp; bufpos := 64 |}
               else tmp in
    let tmp := {| magic := magic tmp; hh := hh tmp; rlength := rlength tmp;
                  buf := splice (splice (buf tmp) 56 (le_bytes 4 (Z.land (rlength tmp) 0xFFFFffff)))
                                60 (le_bytes 4 (Z.land (Z.shiftr (rlength tmp) 32) 0xFFFFffff));
                  bufpos := 64 |} in
    let tmp := ripemd160_compress tmp in
    if magic tmp =? ripemd160_magic then Some (concat (map (le_bytes 4) (hh tmp))) else None.

(** src/crypto.cpp:85-94 [digest_suffix_ripemd160] for two pieces of data. *)
Definition digest_suffix_ripemd160 (data suffix : bytes) : res bytes :=
  match ripemd160_digest (ripemd160_update (ripemd160_update ripemd160_init data) suffix) with
  | Some d => Ok d
  | None => Err E_invalid_signature
  end.
