(** * Specification of JSON texts (RFC 8259), independent of the reader.

    [json_text j t]: the text [t] is a JSON document denoting [j], with any
    insignificant white space and any choice of escapes. *)
From Verif Require Import Base Utf8 Json.

(** Documents. Object members are kept in order with duplicates. A number is
    kept as its text. *)
Inductive jv :=
| JNull
| JBool (b : bool)
| JStr (s : bytes)
| JNum (t : bytes)
| JArr (l : list jv)
| JObj (l : list (bytes * jv)).

(** White space of RFC 8259. *)
Definition ws (w : bytes) : Prop := Forall (fun c => c = 32 \/ c = 9 \/ c = 10 \/ c = 13) w.

(** Hexadecimal digits and their value. *)
Definition hexdigit (c v : Z) : Prop :=
  (48 <= c <= 57 /\ v = c - 48) \/ (65 <= c <= 70 /\ v = c - 55) \/ (97 <= c <= 102 /\ v = c - 87).
(** \uXXXX escapes (the four digits) of the code unit [u]. *)
Definition hex4 (u : Z) (t : bytes) : Prop :=
  exists a b c d va vb vc vd,
    t = [a; b; c; d] /\ hexdigit a va /\ hexdigit b vb /\ hexdigit c vc /\ hexdigit d vd /\
    u = ((va * 16 + vb) * 16 + vc) * 16 + vd.
(** The two character escapes: the letter after the backslash and its meaning. *)
Definition short_escape (e v : Z) : Prop :=
  In (e, v) [(34, 34); (47, 47); (92, 92); (98, 8); (102, 12); (110, 10); (114, 13); (116, 9)].

(** [string_text lax s t]: [t] between quotes denotes the contents [s] (UTF-8).
    With [lax = true] a lone low surrogate escape, which RFC 8259 leaves open, is
    also allowed; the contents are then the three bytes of its code. *)
Inductive string_text (lax : bool) : bytes -> bytes -> Prop :=
| St_nil : string_text lax [] []
| St_char cp s t :                      (* an unescaped character *)
    scalar cp -> 32 <= cp -> cp <> 34 -> cp <> 92 ->
    string_text lax s t -> string_text lax (utf8_enc cp ++ s) (utf8_enc cp ++ t)
| St_short e v s t :
    short_escape e v -> string_text lax s t -> string_text lax (v :: s) (92 :: e :: t)
| St_unit u h s t :                     (* one \u escape of a scalar value *)
    hex4 u h -> scalar u -> string_text lax s t ->
    string_text lax (utf8_enc u ++ s) (92 :: 117 :: h ++ t)
| St_pair u1 u2 h1 h2 s t :             (* a surrogate pair *)
    hex4 u1 h1 -> hex4 u2 h2 -> 55296 <= u1 < 56320 -> 56320 <= u2 < 57344 ->
    string_text lax s t ->
    string_text lax (utf8_enc (65536 + (u1 - 55296) * 1024 + (u2 - 56320)) ++ s)
                (92 :: 117 :: h1 ++ 92 :: 117 :: h2 ++ t)
| St_lone u h s t :                     (* a lone low surrogate *)
    lax = true -> hex4 u h -> 56320 <= u < 57344 -> string_text lax s t ->
    string_text lax (utf8_enc u ++ s) (92 :: 117 :: h ++ t).

(** Numbers: -?(0|[1-9][0-9]* )(\.[0-9]+)?([eE][-+]?[0-9]+)? *)
Definition digits (t : bytes) : Prop := Forall (fun c => 48 <= c <= 57) t.
Definition int_part (t : bytes) : Prop :=
  t = [48] \/ exists c d, t = c :: d /\ 49 <= c <= 57 /\ digits d.
Definition frac_part (t : bytes) : Prop :=
  t = [] \/ exists d, t = 46 :: d /\ d <> [] /\ digits d.
Definition exp_part (t : bytes) : Prop :=
  t = [] \/ exists e sg d, t = e :: sg ++ d /\ (e = 101 \/ e = 69) /\
                       (sg = [] \/ sg = [43] \/ sg = [45]) /\ d <> [] /\ digits d.
Definition number_parts (t m i f e : bytes) : Prop :=
  t = m ++ i ++ f ++ e /\ (m = [] \/ m = [45]) /\ int_part i /\ frac_part f /\ exp_part e.
Definition number_text (t : bytes) : Prop := exists m i f e, number_parts t m i f e.
(** Numbers whose exponent the reader refuses ("Number too big to be stored in
    double"): a non negative exponent above 308 plus the number of fraction digits
    the reader keeps. It keeps digits until 17 of them are significant, not
    counting the first digit of the integer part: after the integer part 0, the
    zeros the fraction starts with and 17 more digits, and after any other, 17
    less the digits that follow its first. *)
Fixpoint leading_zeros (d : bytes) : nat :=
  match d with
  | c :: d' => if c =? 48 then S (leading_zeros d') else 0%nat
  | [] => 0%nat
  end.
Definition kept_digits (i d : bytes) : Z :=
  let n := Z.of_nat (List.length d) in
  if beq i [48] then Z.min n (Z.of_nat (leading_zeros d) + 17)
  else Z.min n (Z.max 0 (17 - (Z.of_nat (List.length i) - 1))).
Definition exponent_fits (i f e : bytes) : Prop :=
  forall c sg d, e = c :: sg ++ d -> (sg = [] \/ sg = [43] \/ sg = [45]) -> digits d ->
            sg <> [45] -> digits_val d <= 308 + kept_digits i (tl f).
Definition number_fits (t : bytes) : Prop :=
  exists m i f e, number_parts t m i f e /\ exponent_fits i f e.

(** Values without surrounding white space, the items between brackets, the
    members between braces. *)
Inductive value_text (lax : bool) : jv -> bytes -> Prop :=
| Vt_null : value_text lax JNull (str "null")
| Vt_true : value_text lax (JBool true) (str "true")
| Vt_false : value_text lax (JBool false) (str "false")
| Vt_str s t : string_text lax s t -> value_text lax (JStr s) (34 :: t ++ [34])
| Vt_num t : number_fits t -> value_text lax (JNum t) t
| Vt_arr0 w : ws w -> value_text lax (JArr []) (91 :: w ++ [93])
| Vt_arr l t : items_text lax l t -> value_text lax (JArr l) (91 :: t ++ [93])
| Vt_obj0 w : ws w -> value_text lax (JObj []) (123 :: w ++ [125])
| Vt_obj l t : members_text lax l t -> value_text lax (JObj l) (123 :: t ++ [125])
with items_text (lax : bool) : list jv -> bytes -> Prop :=
| It_one j w1 t w2 : ws w1 -> value_text lax j t -> ws w2 -> items_text lax [j] (w1 ++ t ++ w2)
| It_cons j w1 t w2 l ts : ws w1 -> value_text lax j t -> ws w2 -> items_text lax l ts ->
    items_text lax (j :: l) (w1 ++ t ++ w2 ++ 44 :: ts)
with members_text (lax : bool) : list (bytes * jv) -> bytes -> Prop :=
| Mt_one k j w1 kt w2 w3 t w4 :
    ws w1 -> string_text lax k kt -> ws w2 -> ws w3 -> value_text lax j t -> ws w4 ->
    members_text lax [(k, j)] (w1 ++ 34 :: kt ++ 34 :: w2 ++ 58 :: w3 ++ t ++ w4)
| Mt_cons k j w1 kt w2 w3 t w4 l ts :
    ws w1 -> string_text lax k kt -> ws w2 -> ws w3 -> value_text lax j t -> ws w4 -> members_text lax l ts ->
    members_text lax ((k, j) :: l) (w1 ++ 34 :: kt ++ 34 :: w2 ++ 58 :: w3 ++ t ++ w4 ++ 44 :: ts).
Scheme value_text_mut := Minimality for value_text Sort Prop
  with items_text_mut := Minimality for items_text Sort Prop
  with members_text_mut := Minimality for members_text Sort Prop.
Combined Scheme json_text_mutind from value_text_mut, items_text_mut, members_text_mut.

Definition json_text_gen (lax : bool) (j : jv) (t : bytes) : Prop :=
  exists w1 b w2, ws w1 /\ value_text lax j b /\ ws w2 /\ t = w1 ++ b ++ w2.

Definition json_text : jv -> bytes -> Prop := json_text_gen false.
Definition json_text_lax : jv -> bytes -> Prop := json_text_gen true.

(** The token sequence of a document. *)
Fixpoint tokens (j : jv) : list token :=
  match j with
  | JNull => [TkNull]
  | JBool b => [TkBool b]
  | JStr s => [TkString s]
  | JNum t => [TkString t]
  | JArr l => TkStartArray :: concat (map tokens l) ++ [TkEndArray]
  | JObj l => TkStartObject :: concat (map (fun kv => TkKey (fst kv) :: tokens (snd kv)) l) ++ [TkEndObject]
  end.
