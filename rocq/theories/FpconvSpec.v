(** * FpconvSpec: what a float and a JSON number mean (specification for C51) *)
From Coq Require Import QArith Qabs Qpower.
From Verif Require Import Base Json JsonSpec.
Open Scope Z_scope.

(** The double with the bit pattern [b] (IEC 60559 binary64): one sign bit, 11 bits of exponent,
    52 bits of fraction. *)
Definition finite (b : Z) : Prop := 0 <= b < 2 ^ 64 /\ (b / 2 ^ 52) mod 2 ^ 11 <> 2047.
Definition double_value (b : Z) : Q :=
  let e := (b / 2 ^ 52) mod 2 ^ 11 in
  let f := b mod 2 ^ 52 in
  let m := if e =? 0 then f else 2 ^ 52 + f in
  let x := (inject_Z m * 2 ^ (Z.max e 1 - 1075))%Q in
  if b <? 2 ^ 63 then x else (- x)%Q.
(** The float with the bit pattern [b] (binary32): 8 bits of exponent, 23 bits of fraction. *)
Definition finite32 (b : Z) : Prop := 0 <= b < 2 ^ 32 /\ (b / 2 ^ 23) mod 2 ^ 8 <> 255.
Definition float_value (b : Z) : Q :=
  let e := (b / 2 ^ 23) mod 2 ^ 8 in
  let f := b mod 2 ^ 23 in
  let m := if e =? 0 then f else 2 ^ 23 + f in
  let x := (inject_Z m * 2 ^ (Z.max e 1 - 150))%Q in
  if b <? 2 ^ 31 then x else (- x)%Q.

(** The number a JSON number text stands for. *)
Definition exponent (e : bytes) : Z :=
  match e with
  | _ :: c :: d => if c =? 45 then - digits_val d else if c =? 43 then digits_val d else digits_val (c :: d)
  | _ => 0
  end.
Definition number_value (m i f e : bytes) : Q :=
  let x := (inject_Z (digits_val (i ++ tl f)) * 10 ^ (exponent e - Z.of_nat (List.length (tl f))))%Q in
  match m with [] => x | _ => (- x)%Q end.
Definition stands_for (t : bytes) (q : Q) : Prop := exists m i f e, number_parts t m i f e /\ (q == number_value m i f e)%Q.

(** [x] is nearer to [q] than every other value of [l]. *)
Definition nearest (values : Q -> Prop) (x q : Q) : Prop :=
  forall y, values y -> (y == x)%Q \/ (Qabs (q - x) < Qabs (q - y))%Q.
Definition doubles (y : Q) : Prop := exists b, finite b /\ (y == double_value b)%Q.
Definition floats (y : Q) : Prop := exists b, finite32 b /\ (y == float_value b)%Q.

(** What a correctly rounding strtod (strtof) does for numbers which are not subnormal: it finds the
    double (the float) nearest to the number. For an inexact subnormal result the C standard
    leaves open whether errno is set, and the library under test refuses the text if it is. *)
Definition normal (b : Z) : Prop := (b / 2 ^ 52) mod 2 ^ 11 <> 0 \/ b mod 2 ^ 63 = 0.
Definition normal32 (b : Z) : Prop := (b / 2 ^ 23) mod 2 ^ 8 <> 0 \/ b mod 2 ^ 31 = 0.
Definition strtod_rounds (strtod : bytes -> option Z) : Prop :=
  forall t q x, stands_for t q -> finite x -> normal x -> (x < 2 ^ 63 <-> hd_error t <> Some 45) -> nearest doubles (double_value x) q -> strtod t = Some x.
Definition strtof_rounds (strtof : bytes -> option Z) : Prop :=
  forall t q x, stands_for t q -> finite32 x -> normal32 x -> (x < 2 ^ 31 <-> hd_error t <> Some 45) -> nearest floats (float_value x) q -> strtof t = Some x.
