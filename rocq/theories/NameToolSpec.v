(** * NameToolSpec: what num2name and name2num have to do (specification for C53) *)
From Verif Require Import Base Name NameFacts NameTool.

(** ** Numbers as the tool reads them *)
(** [c] is the digit [d] of base [b], a letter in either case. *)
Definition digit (b : nat) (c : Z) (d : nat) : Prop :=
  nth_error (firstn b (str "0123456789abcdef")) d = Some c \/ nth_error (firstn b (str "0123456789ABCDEF")) d = Some c.
Inductive digits (b : nat) : bytes -> Z -> Prop :=
| One c d : digit b c d -> digits b [c] (Z.of_nat d)
| More s v c d : digits b s v -> digit b c d -> digits b (s ++ [c]) (v * Z.of_nat b + Z.of_nat d).
(** Decimal, octal (after a 0) or hexadecimal (after 0x). *)
Inductive magnitude : bytes -> Z -> Prop :=
| Decimal s v : digits 10 s v -> hd 0 s <> 48 -> magnitude s v
| Octal s v : digits 8 s v -> hd 0 s = 48 -> magnitude s v
| Hexadecimal s v : digits 16 s v -> magnitude (str "0x" ++ s) v
| HEXADECIMAL s v : digits 16 s v -> magnitude (str "0X" ++ s) v.
(** The white space of C: space, tab, line feed, vertical tab, form feed, carriage return. *)
Definition white_space (c : Z) : Prop := In c [32; 9; 10; 11; 12; 13].
(** White space, a sign, a magnitude below 2^64; a minus sign negates modulo 2^64. *)
Inductive number (s : bytes) : Z -> Prop :=
| Unsigned w m v : s = w ++ m -> (forall c, In c w -> white_space c) -> magnitude m v -> v < 2 ^ 64 -> number s v
| Plus w m v : s = w ++ str "+" ++ m -> (forall c, In c w -> white_space c) -> magnitude m v -> v < 2 ^ 64 -> number s v
| Minus w m v : s = w ++ str "-" ++ m -> (forall c, In c w -> white_space c) -> magnitude m v -> v < 2 ^ 64 -> number s ((- v) mod 2 ^ 64).

(** ** Options *)
(** The letters an option stands for; [None] for one which is not known or asks for help. *)
Definition option_letters (a : bytes) : option bytes :=
  if beq a (str "--reverse") then Some (str "r")
  else if beq a (str "--hex") then Some (str "x")
  else if beq a (str "--dec") then Some (str "d")
  else if forallb (fun c => existsb (Z.eqb c) (str "xdr")) (tl a) then Some (tl a) else None.
Definition is_option (a : bytes) : bool := hd 0 a =? 45.
Definition all_letters (args : list bytes) : bytes :=
  concat (map (fun a => match option_letters a with Some l => l | None => [] end) (filter is_option args)).
(** Every r turns the direction round; the last of x and d decides about the form of numbers. *)
Definition turned (l : bytes) : bool := Nat.odd (count_occ Z.eq_dec l 114).
Definition in_hex (l : bytes) : Prop := forall p q, l = p ++ str "d" ++ q -> In 120 q.

(** ** Lines *)
Definition lines_are (input : bytes) (ls : list bytes) : Prop :=
  (forall l, In l ls -> ~ In 10 l) /\
  (input = concat (map line ls) \/ exists before last, ls = before ++ [last] /\ last <> [] /\ input = concat (map line before) ++ last).

(** ** What is written for one input *)
Definition decimal_text (t : bytes) (v : Z) : Prop := digits 10 t v /\ (hd 0 t = 48 -> t = str "0").
Definition hex_text (t : bytes) (v : Z) : Prop :=
  (v = 0 /\ t = str "0") \/
  exists d, t = str "0x" ++ d /\ digits 16 d v /\ hd 0 d <> 48 /\ forall c, In c d -> In c (str "0123456789abcdef").
Definition to_name (s : bytes) (w : written) : Prop :=
  (exists v, number s v /\ w = Written (line (name_to_string v)) [] true) \/
  (forall v, ~ number s v) /\ (w = Written [] (line (str "stoull")) false \/ w = Written [] (line (str "Invalid name value: " ++ s)) false).
Definition to_number (in_hex : bool) (s : bytes) (w : written) : Prop :=
  (exists v t, valid_name_text s /\ 0 <= v < 2 ^ 64 /\ name_to_string v = trim_dots s /\
               (if in_hex then hex_text t v else decimal_text t v) /\ w = Written (line t) [] true) \/
  ~ valid_name_text s /\ exists e, w = Written [] (line e) false /\
    In e [str "character is not in allowed character set for names";
          str "thirteenth character in name cannot be a letter that comes after j";
          str "string is too long to be a valid name"].
Definition answer (names_to_numbers in_hex : bool) (s : bytes) (w : written) : Prop :=
  if names_to_numbers then to_number in_hex s w else to_name s w.
