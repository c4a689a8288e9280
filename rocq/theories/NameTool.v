(** * NameTool: the command line tools num2name and name2num (tools/name.cpp)
    A run takes the arguments and the standard input and gives what is written to the standard output and
    to the standard error, and the exit status. *)
From Verif Require Import Base Name Decimal Capi.

(** ** strtoull(s, &end, 0) of the C library (C17 7.22.1.4) in the "C" locale, as used by std::stoull *)
Definition is_space (c : Z) : bool := (c =? 32) || ((9 <=? c) && (c <=? 13)).
(** strtoull: leading white space (tools/name.cpp:14). *)
Fixpoint skip_space (s : bytes) : bytes :=
  match s with c :: s' => if is_space c then skip_space s' else s | [] => [] end.
(** The value of a digit or letter, -1 for other characters. *)
Definition digit_of (c : Z) : Z :=
  if is_digit c then c - 48
  else if (97 <=? c) && (c <=? 122) then c - 87
  else if (65 <=? c) && (c <=? 90) then c - 55
  else -1.
(** strtoull: a digit in this base (tools/name.cpp:14). *)
Definition is_digit_of (base c : Z) : bool := (0 <=? digit_of c) && (digit_of c <? base).
(** strtoull: the digits (tools/name.cpp:14). *)
Fixpoint read_digits (base acc : Z) (s : bytes) : Z * bytes :=
  match s with
  | c :: s' => if is_digit_of base c then read_digits base (acc * base + digit_of c) s' else (acc, s)
  | [] => (acc, [])
  end.
(** The sign, then the prefix which tells the base. [0x] without a digit is the number [0]. *)
Definition read_sign (s : bytes) : bool * bytes :=
  match s with c :: s' => if c =? 45 then (true, s') else if c =? 43 then (false, s') else (false, s) | [] => (false, s) end.
(** strtoull: the prefix (tools/name.cpp:14). *)
Definition read_base (s : bytes) : Z * bytes :=
  match s with
  | c :: s1 =>
      if c =? 48 then
        match s1 with
        | x :: s2 => if ((x =? 120) || (x =? 88)) && match s2 with d :: _ => is_digit_of 16 d | [] => false end then (16, s2) else (8, s)
        | [] => (8, s)
        end
      else (10, s)
  | [] => (10, s)
  end.
(** [None]: no conversion ([end == s]). Otherwise the value, whether errno is ERANGE, and [end]. *)
Definition strtoull (s : bytes) : option (Z * bool * bytes) :=
  let (neg, r) := read_sign (skip_space s) in
  let (base, r) := read_base r in
  if match r with c :: _ => is_digit_of base c | [] => false end then
    let (v, rest) := read_digits base 0 r in
    if v <? 2 ^ 64 then Some ((if neg then (- v) mod 2 ^ 64 else v), false, rest) else Some (2 ^ 64 - 1, true, rest)
  else None.
(** std::stoull(s, &pos, 0): the value and [pos]. Both exceptions have the text "stoull" (libstdc++). *)
Definition stoull (s : bytes) : option (Z * nat) :=
  match strtoull (upto_nul s) with
  | Some (v, false, rest) => Some (v, List.length (upto_nul s) - List.length rest)%nat
  | _ => None
  end.

(** ** Output of a uint64_t with std::showbase: decimal, or std::hex *)
Fixpoint hex_loop (fuel : nat) (n : Z) (acc : bytes) : bytes :=
  match fuel with
  | O => acc
  | S f => let d := n mod 16 in
           let acc' := (if d <? 10 then 48 + d else 87 + d) :: acc in
           if n / 16 =? 0 then acc' else hex_loop f (n / 16) acc'
  end.
(** operator<<(uint64_t) with std::hex and std::showbase (tools/name.cpp:10, 75-77). *)
Definition hex_number (n : Z) : bytes := if n =? 0 then [48] else str "0x" ++ hex_loop 16 n [].
(** tools/name.cpp:10, 75-77 *)
Definition number_text (hex : bool) (n : Z) : bytes := if hex then hex_number n else dec n.

(** tools/name.cpp:7-27 handle_one: the texts written to the two outputs, and the result. *)
Record written := Written { out : bytes; err : bytes; ok : bool }.
(** tools/name.cpp:10, 16, 18, 23, 31, 33, 66: [<< std::endl] *)
Definition line (s : bytes) : bytes := s ++ [10].
(** tools/name.cpp:7-27 *)
Definition handle_one (s : bytes) (reverse hex : bool) : written :=
  if reverse then
    match string_to_name_strict s with
    | Ok v => Written (line (number_text hex v)) [] true
    | Err e => Written [] (line (what e)) false
    | Undef _ => Written [] [] false
    end
  else
    match stoull s with
    | None => Written [] (line (str "stoull")) false
    | Some (v, pos) =>
        if Nat.eqb pos (List.length s) then Written (line (name_to_string v)) [] true
        else Written [] (line (str "Invalid name value: " ++ s)) false
    end.

(** tools/name.cpp:29-36 *)
Definition usage (reverse : bool) : bytes :=
  line (if reverse then str "Usage: name2num [-x|--hex] [-d|--dec] [-r|--reverse] [names...]" else str "Usage: num2name [-r|--reverse] [values...]").

(** std::string_view::find(s) != npos *)
Fixpoint starts_with (p s : bytes) : bool :=
  match p, s with [], _ => true | x :: p', y :: s' => (x =? y) && starts_with p' s' | _, _ => false end.
(** std::string_view::find (tools/name.cpp:44) *)
Fixpoint contains (p s : bytes) : bool := starts_with p s || match s with _ :: s' => contains p s' | [] => false end.

(** The option letters, tools/name.cpp:60-68. *)
Record options := Options { reverse : bool; hex : bool; names : list bytes }.
(** What tools/name.cpp:47-73 ends with. *)
Inductive parsed := Go (o : options) | Stop (text : bytes) | Bad (w : string).
(** tools/name.cpp:60-68 *)
Fixpoint letters (a l : bytes) (o : options) : parsed :=
  match l with
  | [] => Go o
  | c :: l' =>
      if c =? 120 then letters a l' (Options (reverse o) true (names o))
      else if c =? 100 then letters a l' (Options (reverse o) false (names o))
      else if c =? 114 then letters a l' (Options (negb (reverse o)) (hex o) (names o))
      else if c =? 104 then Stop (usage (reverse o))
      else Stop (line (str "Unknown argument: " ++ a))
  end.
(** tools/name.cpp:49-72: one argument. [a[0]] of an empty string_view is undefined. *)
Definition argument (a : bytes) (o : options) : parsed :=
  match a with
  | [] => Bad "string_view index out of range"
  | c :: l =>
      if c =? 45 then
        if beq a (str "--help") then Stop (usage (reverse o))
        else if beq a (str "--reverse") then Go (Options (negb (reverse o)) (hex o) (names o))
        else if beq a (str "--hex") then Go (Options (reverse o) true (names o))
        else if beq a (str "--dec") then Go (Options (reverse o) false (names o))
        else letters a l o
      else Go (Options (reverse o) (hex o) (names o ++ [a]))
  end.
(** tools/name.cpp:48-73 *)
Fixpoint arguments (l : list bytes) (o : options) : parsed :=
  match l with
  | [] => Go o
  | a :: l' => match argument a o with Go o => arguments l' o | r => r end
  end.

(** std::getline until the end of the input *)
Fixpoint getlines (s cur : bytes) : list bytes :=
  match s with
  | [] => match cur with [] => [] | _ => [cur] end
  | c :: s' => if c =? 10 then cur :: getlines s' [] else getlines s' (cur ++ [c])
  end.

(** tools/name.cpp:79-84: the loop over the inputs; [result] is 0 or 1. *)
Fixpoint handle_all (l : list bytes) (reverse hex : bool) (o e : bytes) (result : Z) : bytes * bytes * Z :=
  match l with
  | [] => (o, e, result)
  | s :: l' =>
      let w := handle_one s reverse hex in
      handle_all l' reverse hex (o ++ out w) (e ++ err w) (Z.lor result (if ok w then 0 else 1))
  end.
(** tools/name.cpp:38-86 main: standard output, standard error, exit status *)
Definition main (argv : list bytes) (input : bytes) : res (bytes * bytes * Z) :=
  match argv with
  | [] => Ok ([], [], 1)
  | prog :: args =>
      match arguments args (Options (contains (str "name2num") prog) true []) with
      | Bad w => Undef w
      | Stop t => Ok ([], t, 2)
      | Go o =>
          let l := match names o with [] => getlines input [] | l => l end in
          Ok (handle_all l (reverse o) (hex o) [] [] 0)
      end
  end.
