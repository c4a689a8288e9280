(** * The proleptic Gregorian calendar and time texts: specification for C14 and C15. *)
From Verif Require Import Base Decimal.

Definition leap (y : Z) : bool := (y mod 4 =? 0) && (negb (y mod 100 =? 0) || (y mod 400 =? 0)).
Definition month_length (y m : Z) : Z :=
  if m =? 2 then (if leap y then 29 else 28)
  else if (m =? 4) || (m =? 6) || (m =? 9) || (m =? 11) then 30 else 31.

(** year, month, day *)
Definition date := (Z * Z * Z)%type.
Definition valid_date (x : date) : bool :=
  let '(y, m, d) := x in (1 <=? m) && (m <=? 12) && (1 <=? d) && (d <=? month_length y m).
Definition next_day (x : date) : date :=
  let '(y, m, d) := x in
  if d <? month_length y m then (y, m, d + 1)
  else if m <? 12 then (y, m + 1, 1) else (y + 1, 1, 1).
Definition prev_day (x : date) : date :=
  let '(y, m, d) := x in
  if 1 <? d then (y, m, d - 1)
  else if 1 <? m then (y, m - 1, month_length y (m - 1)) else (y - 1, 12, 31).

(** Day number 0 is 1970-01-01; the others are reached by counting days. *)
Definition calendar (n : Z) : date :=
  if 0 <=? n then Nat.iter (Z.to_nat n) next_day (1970, 1, 1)
  else Nat.iter (Z.to_nat (- n)) prev_day (1970, 1, 1).

(** YYYY-MM-DDThh:mm:ss *)
Definition second_text (x : date) (h mi s : Z) : bytes :=
  let '(y, m, d) := x in
  decn 4 y ++ str "-" ++ decn 2 m ++ str "-" ++ decn 2 d ++ str "T" ++
  decn 2 h ++ str ":" ++ decn 2 mi ++ str ":" ++ decn 2 s.
(** The text of the instant [us] microseconds after 1970-01-01T00:00:00. *)
Definition time_text (us : Z) : bytes :=
  let day := us / 86400000000 in
  let ms := us / 1000 mod 86400000 in
  second_text (calendar day) (ms / 3600000) (ms / 60000 mod 60) (ms / 1000 mod 60) ++ str "." ++ decn 3 (ms mod 1000).
