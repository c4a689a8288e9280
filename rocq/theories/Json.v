(** * The JSON reader: rapidjson's pull parser as json_token_stream drives it
    (include/eosio/from_json.hpp:161-341), and the JSON string writer
    (include/eosio/to_json.hpp:18-63).

    /repo/external/rapidjson is an empty submodule in this checkout: the parts of
    rapidjson/reader.h that abieos instantiates (IterativeParseNext, its state
    table, ParseString, ParseNumber, the literals) are modelled from the
    published source. The text is a C string: it ends at the first NUL
    ([cstr] below), and looking at the end gives NUL. *)
From Verif Require Import Base Hex Utf8.

(** ** Tokens: include/eosio/from_json.hpp:161-178. [type_unread] is represented by the
    absence of a token. Numbers arrive as strings
    (kParseNumbersAsStringsFlag, include/eosio/from_json.hpp:196-197 and 309). *)
Inductive token :=
| TkNull
| TkBool (b : bool)
| TkString (s : bytes)
| TkStartObject
| TkKey (s : bytes)
| TkEndObject
| TkStartArray
| TkEndArray.

(** The characters before the terminating NUL (rapidjson InsituStringStream). *)
Fixpoint cstr (b : bytes) : bytes :=
  match b with
  | [] => []
  | c :: b' => if c =? 0 then [] else c :: cstr b'
  end.

(** reader.h [SkipWhitespace]: space, \n, \r, \t. *)
Definition is_ws (c : Z) : bool := (c =? 32) || (c =? 10) || (c =? 13) || (c =? 9).
(** rapidjson reader.h [SkipWhitespace], the loop. *)
Fixpoint skip_ws (b : bytes) : bytes :=
  match b with
  | c :: b' => if is_ws c then skip_ws b' else b
  | [] => []
  end.

(** *** Strings: reader.h [ParseHex4], [ParseStringToStream] *)
Fixpoint parse_hex (n : nat) (acc : Z) (b : bytes) : res (Z * bytes) :=
  match n with
  | O => Ok (acc, b)
  | S n' =>
      match b with
      | c :: b' => match get_digit c with
                   | Some d => parse_hex n' (acc * 16 + d) b'
                   | None => Err E_string_unicode_escape_invalid_hex
                   end
      | [] => Err E_string_unicode_escape_invalid_hex
      end
  end.
(** reader.h, the [escape] table. *)
Definition escape_char (c : Z) : option Z :=
  if c =? 34 then Some 34        (* double quote *)
  else if c =? 47 then Some 47   (* /  *)
  else if c =? 92 then Some 92   (* \  *)
  else if c =? 98 then Some 8    (* b  *)
  else if c =? 102 then Some 12  (* f  *)
  else if c =? 110 then Some 10  (* n  *)
  else if c =? 114 then Some 13  (* r  *)
  else if c =? 116 then Some 9   (* t  *)
  else None.
(** The text after the opening quote; contents, and the text after the closing
    quote. A lone low surrogate escape is accepted and encoded as three bytes, as
    in the releases of rapidjson of this commit's time. [fuel] bounds the number
    of characters; each step consumes at least one. *)
Fixpoint parse_string (fuel : nat) (b : bytes) : res (bytes * bytes) :=
  match fuel with
  | O => Err E_string_miss_quotation_mark
  | S fuel' =>
      match b with
      | [] => Err E_string_miss_quotation_mark
      | c :: b1 =>
          if c =? 92 then
            match b1 with
            | [] => Err E_string_escape_invalid
            | e :: b2 =>
                match escape_char e with
                | Some x => let* (s, r) := parse_string fuel' b2 in Ok (x :: s, r)
                | None =>
                    if e =? 117 then
                      let* (cp, b3) := parse_hex 4 0 b2 in
                      if (55296 <=? cp) && (cp <=? 56319) then
                        match b3 with
                        | 92 :: 117 :: b4 =>
                            let* (cp2, b5) := parse_hex 4 0 b4 in
                            if (cp2 <? 56320) || (57343 <? cp2) then Err E_string_unicode_surrogate_invalid
                            else
                              let* (s, r) := parse_string fuel' b5 in
                              Ok (utf8_encode (Z.lor (Z.shiftl (cp - 55296) 10) (cp2 - 56320) + 65536) ++ s, r)
                        | _ => Err E_string_unicode_surrogate_invalid
                        end
                      else
                        let* (s, r) := parse_string fuel' b3 in
                        Ok (utf8_encode cp ++ s, r)
                    else Err E_string_escape_invalid
                end
            end
          else if c =? 34 then Ok ([], b1)
          else if c <? 32 then Err E_string_invalid_encoding
          else match utf8_validate b with
               | Some n => let* (s, r) := parse_string fuel' (skipn n b) in Ok (firstn n b ++ s, r)
               | None => Err E_string_invalid_encoding
               end
      end
  end.

(** *** Numbers: reader.h [ParseNumber] with kParseNumbersAsStringsFlag: only the
    extent of the number matters. *)
Definition is_dig (c : Z) : bool := (48 <=? c) && (c <=? 57).
(** rapidjson reader.h [ParseNumber]: a run of digits. *)
Fixpoint span_digits (b : bytes) : bytes * bytes :=
  match b with
  | c :: b' => if is_dig c then let (d, r) := span_digits b' in (c :: d, r) else ([], b)
  | [] => ([], [])
  end.
(** Value of the exponent digits. *)
Definition digits_val (d : bytes) : Z := fold_left (fun a c => a * 10 + (c - 48)) d 0.
(** The integer part: a single 0 or a digit 1-9 and more digits. *)
Definition parse_int_part (b : bytes) : res (bytes * bytes) :=
  match b with
  | c :: b' => if c =? 48 then Ok ([c], b')
               else if is_dig c then Ok (span_digits b)
               else Err E_value_invalid
  | [] => Err E_value_invalid
  end.
(** rapidjson reader.h [ParseNumber]: the fraction. *)
Definition parse_frac_part (b : bytes) : res (bytes * bytes) :=
  match b with
  | c :: b' =>
      if c =? 46 then
        let (d, r) := span_digits b' in
        match d with
        | [] => Err E_number_miss_fraction
        | _ => Ok (c :: d, r)
        end
      else Ok ([], b)
  | [] => Ok ([], b)
  end.
(** An optional character among [cs]. *)
Definition take_opt (cs : bytes) (b : bytes) : bytes * bytes :=
  match b with
  | c :: b' => if existsb (Z.eqb c) cs then ([c], b') else ([], b)
  | [] => ([], b)
  end.
(** The fraction digits rapidjson counts (reader.h [ParseNumber], expFrac): each
    one as long as fewer than 17 digits are significant ([n], significandDigit).
    A digit is significant when it or one before it is not 0 ([nz]); the first
    digit of the integer part is not counted as one. (The two loops of the source,
    over an integer and over a double significand, are one here: the first ends
    at 2^53, before the 17th digit.) *)
Fixpoint counted_from (nz : bool) (n : Z) (d : bytes) : Z :=
  match d with
  | c :: d' =>
      if n <? 17 then
        let nz' := nz || negb (c =? 48) in
        1 + counted_from nz' (if nz' then n + 1 else n) d'
      else 0
  | [] => 0
  end.
(** rapidjson reader.h [ParseNumber]: -expFrac, for the integer part [i] and the
    fraction digits [d]. (An integer part of more than 308 digits is taken as it
    is: some old releases of rapidjson refuse it.) *)
Definition exp_frac (i d : bytes) : Z :=
  counted_from (negb (beq i [48])) (Z.of_nat (List.length (tl i))) d.
(** [nfrac] is the number of counted fraction digits. A positive exponent of two
    or more digits above 308 + nfrac is refused. *)
Definition parse_exp_part (nfrac : Z) (b : bytes) : res (bytes * bytes) :=
  match b with
  | c :: b' =>
      if (c =? 101) || (c =? 69) then
        let (sgn, b2) := take_opt [43; 45] b' in
        let (d, r) := span_digits b2 in
        match d with
        | [] => Err E_number_miss_exponent
        | _ => if negb (beq sgn [45]) && (308 + nfrac <? digits_val d) then Err E_number_too_big
               else Ok (c :: sgn ++ d, r)
        end
      else Ok ([], b)
  | [] => Ok ([], b)
  end.
(** rapidjson reader.h [ParseNumber]; called for include/eosio/from_json.hpp:196-198. *)
Definition parse_number (b : bytes) : res (bytes * bytes) :=
  let (sgn, b1) := take_opt [45] b in
  let* (i, b2) := parse_int_part b1 in
  let* (f, b3) := parse_frac_part b2 in
  let* (e, b4) := parse_exp_part (exp_frac i (tl f)) b3 in
  Ok (sgn ++ i ++ f ++ e, b4).

(** *** Literals: reader.h [ParseNull], [ParseTrue], [ParseFalse] *)
Fixpoint strip (p b : bytes) : option bytes :=
  match p, b with
  | [], _ => Some b
  | x :: p', y :: b' => if x =? y then strip p' b' else None
  | _ :: _, [] => None
  end.
(** rapidjson reader.h [ParseNull], [ParseTrue], [ParseFalse]; delivered to include/eosio/from_json.hpp:300-308. *)
Definition literal (p : bytes) (t : token) (b : bytes) : res (token * bytes) :=
  match strip p b with Some r => Ok (t, r) | None => Err E_value_invalid end.

(** *** The state table: reader.h [IterativeParsingState], [Predict], [Transit],
    [HandleError]. The stack holds the state to return to after a closing
    bracket (the element counts are not modelled: they reach the handlers as an
    ignored argument). *)
Inductive pstate :=
| PStart | PObjInit | PKey | PColon | PMember | PMComma
| PArrInit | PElem | PEComma | PFinish.
(** rapidjson reader.h [HandleError]. *)
Definition handle_error (st : pstate) : error :=
  match st with
  | PStart => E_document_empty
  | PFinish => E_document_root_not_singular
  | PObjInit | PMComma => E_object_miss_name
  | PKey => E_object_miss_colon
  | PMember => E_object_miss_comma_or_curly_bracket
  | PColon | PArrInit | PEComma => E_value_invalid
  | PElem => E_array_miss_comma_or_square_bracket
  end.
(** The state a value leads to from a state that expects one. *)
Definition after (st : pstate) : option pstate :=
  match st with
  | PStart => Some PFinish
  | PColon => Some PMember
  | PArrInit | PEComma => Some PElem
  | _ => None
  end.
(** The state pushed when a bracket opens. *)
Definition frame (st : pstate) : pstate :=
  match st with
  | PColon => PMember
  | PArrInit | PEComma => PElem
  | _ => st
  end.
(** rapidjson reader.h [Transit], at a closing bracket. *)
Definition unframe (st : pstate) : pstate := match st with PStart => PFinish | _ => st end.

(** One iteration of the loop on input whose white space is already skipped:
    next state, stack, token delivered (none for [,] and [:]), remaining text. *)
Definition step (st : pstate) (stk : list pstate) (b : bytes)
  : res (pstate * list pstate * option token * bytes) :=
  let bad := Err (handle_error st) in
  let close (t : token) (r : bytes) :=
    match stk with
    | s :: stk' => Ok (unframe s, stk', Some t, r)
    | [] => bad
    end in
  let value (k : res (token * bytes)) :=
    match after st with
    | Some st' => let* (t, r) := k in Ok (st', stk, Some t, r)
    | None => bad
    end in
  match b with
  | c :: r =>
      if c =? 91 then            (* [ *)
        match after st with Some _ => Ok (PArrInit, frame st :: stk, Some TkStartArray, r) | None => bad end
      else if c =? 123 then      (* { *)
        match after st with Some _ => Ok (PObjInit, frame st :: stk, Some TkStartObject, r) | None => bad end
      else if c =? 93 then       (* ] *)
        match st with
        | PArrInit | PElem => close TkEndArray r
        | _ => bad
        end
      else if c =? 125 then      (* } *)
        match st with
        | PObjInit | PMember => close TkEndObject r
        | _ => bad
        end
      else if c =? 44 then       (* , *)
        match st with
        | PElem => Ok (PEComma, stk, None, r)
        | PMember => Ok (PMComma, stk, None, r)
        | _ => bad
        end
      else if c =? 58 then       (* : *)
        match st with
        | PKey => Ok (PColon, stk, None, r)
        | _ => bad
        end
      else if c =? 34 then       (* a string *)
        match st with
        | PObjInit | PMComma =>
            let* (s, r') := parse_string (S (List.length r)) r in Ok (PKey, stk, Some (TkKey s), r')
        | _ => value (let* (s, r') := parse_string (S (List.length r)) r in Ok (TkString s, r'))
        end
      else if c =? 110 then value (literal (str "null") TkNull b)
      else if c =? 116 then value (literal (str "true") (TkBool true) b)
      else if c =? 102 then value (literal (str "false") (TkBool false) b)
      else value (let* (n, r') := parse_number b in Ok (TkString n, r'))
  | [] => value (let* (n, r') := parse_number b in Ok (TkString n, r'))
  end.

(** reader.h [IterativeParseNext], run until the document is finished or an error
    is met. The pull parser does not depend on what its caller does with the
    tokens, so the whole token sequence is computed at once: the tokens delivered
    and the error, if any, that the call after the last of them reports.
    [fuel] bounds the number of iterations; each consumes at least one character. *)
Fixpoint parse (fuel : nat) (st : pstate) (stk : list pstate) (b : bytes) : list token * option error :=
  match fuel with
  | O => ([], Some E_terminated)
  | S fuel' =>
      match b with
      | [] => ([], Some (handle_error st))
      | _ =>
          match step st stk (skip_ws b) with
          | Ok (st', stk', t, r) =>
              match st' with
              | PFinish =>
                  match skip_ws r with
                  | [] => (match t with Some t => [t] | None => [] end, None)
                  | _ => ([], Some E_document_root_not_singular)
                  end
              | _ =>
                  let (ts, e) := parse fuel' st' stk' r in
                  (match t with Some t => t :: ts | None => ts end, e)
              end
          | Err e => ([], Some e)
          | Undef w => ([], Some E_terminated)
          end
      end
  end.
(** The token stream of a text. *)
Definition tokenize (text : bytes) : list token * option error :=
  let b := cstr text in parse (S (List.length b)) PStart [] b.

(** ** json_token_stream (include/eosio/from_json.hpp:180-341)
    [toks] are the tokens not yet eaten; [tail] is the error waiting behind them. *)
Record jstream := JS { toks : list token; jtail : option error }.
(** include/eosio/from_json.hpp:189: the constructor, and the tokens it will deliver. *)
Definition open_json (text : bytes) : jstream := let (t, e) := tokenize text in JS t e.
(** include/eosio/from_json.hpp:193-200 [peek_token]; [None] is type_unread, which is what is seen after the
    end of a complete document. *)
Definition peek_token (s : jstream) : res (option token) :=
  match toks s with
  | t :: _ => Ok (Some t)
  | [] => match jtail s with Some e => Err e | None => Ok None end
  end.
(** include/eosio/from_json.hpp:202 [eat_token] *)
Definition eat_token (s : jstream) : jstream := JS (tl (toks s)) (jtail s).
(** include/eosio/from_json.hpp:191 [complete()] together with the test for an unread token
    (204-207 [get_end]).
    The callers in src/abieos.hpp:758 only call [complete()], always after eating the
    current token. *)
Definition at_end (s : jstream) : bool :=
  match toks s, jtail s with [], None => true | _, _ => false end.
(** include/eosio/from_json.hpp:204-207 [get_end] *)
Definition get_end (s : jstream) : res unit := check (at_end s) E_expected_end.
(** include/eosio/from_json.hpp:208-214 [get_null_pred] *)
Definition get_null_pred (s : jstream) : res (bool * jstream) :=
  let* t := peek_token s in
  match t with Some TkNull => Ok (true, eat_token s) | _ => Ok (false, s) end.
(** include/eosio/from_json.hpp:215-218 [get_null] *)
Definition get_null (s : jstream) : res jstream :=
  let* (b, s') := get_null_pred s in
  let* _ := check b E_expected_null in Ok s'.
(** include/eosio/from_json.hpp:220-226 [get_bool] *)
Definition get_bool (s : jstream) : res (bool * jstream) :=
  let* t := peek_token s in
  match t with Some (TkBool b) => Ok (b, eat_token s) | _ => Err E_expected_bool end.
(** include/eosio/from_json.hpp:228-234 [get_string] *)
Definition get_string (s : jstream) : res (bytes * jstream) :=
  let* t := peek_token s in
  match t with Some (TkString b) => Ok (b, eat_token s) | _ => Err E_expected_string end.
(** include/eosio/from_json.hpp:236-241 [get_start_object] *)
Definition get_start_object (s : jstream) : res jstream :=
  let* t := peek_token s in
  match t with Some TkStartObject => Ok (eat_token s) | _ => Err E_expected_start_object end.
(** include/eosio/from_json.hpp:243-249 [get_key] *)
Definition get_key (s : jstream) : res (bytes * jstream) :=
  let* t := peek_token s in
  match t with Some (TkKey k) => Ok (k, eat_token s) | _ => Err E_expected_key end.
(** include/eosio/from_json.hpp:251-257 [maybe_get_key] *)
Definition maybe_get_key (s : jstream) : res (option bytes * jstream) :=
  let* t := peek_token s in
  match t with Some (TkKey k) => Ok (Some k, eat_token s) | _ => Ok (None, s) end.
(** include/eosio/from_json.hpp:259-265 [get_end_object_pred] *)
Definition get_end_object_pred (s : jstream) : res (bool * jstream) :=
  let* t := peek_token s in
  match t with Some TkEndObject => Ok (true, eat_token s) | _ => Ok (false, s) end.
(** include/eosio/from_json.hpp:267-272 [get_end_object] *)
Definition get_end_object (s : jstream) : res jstream :=
  let* t := peek_token s in
  match t with Some TkEndObject => Ok (eat_token s) | _ => Err E_expected_end_object end.
(** include/eosio/from_json.hpp:274-280 [get_start_array_pred], 289-292 [get_start_array] *)
Definition get_start_array (s : jstream) : res jstream :=
  let* t := peek_token s in
  match t with Some TkStartArray => Ok (eat_token s) | _ => Err E_expected_start_array end.
(** include/eosio/from_json.hpp:282-288 [get_end_array_pred] *)
Definition get_end_array_pred (s : jstream) : res (bool * jstream) :=
  let* t := peek_token s in
  match t with Some TkEndArray => Ok (true, eat_token s) | _ => Ok (false, s) end.
(** include/eosio/from_json.hpp:294-297 [get_end_array] *)
Definition get_end_array (s : jstream) : res jstream :=
  let* (b, s') := get_end_array_pred s in
  let* _ := check b E_expected_end_array in Ok s'.

(** ** Writing a string: include/eosio/to_json.hpp:30-63 *)
(** The test of include/eosio/to_json.hpp:38: a character that is copied rather than escaped. *)
Definition plain (c : Z) : bool := negb (c =? 34) && negb (c =? 92) && (32 <=? c) && negb (c =? 127).
(** include/eosio/to_json.hpp:38, the inner loop. *)
Fixpoint span_plain (b : bytes) : bytes * bytes :=
  match b with
  | c :: b' => if plain c then let (d, r) := span_plain b' in (c :: d, r) else ([], b)
  | [] => ([], [])
  end.
(** include/eosio/to_json.hpp:39-48 the run of plain characters. [stream_adaptor] sees at most the next four
    bytes of the run, padded with zeros. *)
Fixpoint write_run (fuel : nat) (run : bytes) : bytes :=
  match fuel with
  | O => []
  | S fuel' =>
      match run with
      | [] => []
      | _ :: run' =>
          match utf8_validate (firstn 4 run) with
          | Some n => firstn n run ++ write_run fuel' (skipn n run)
          | None => 63 :: write_run fuel' run'
          end
      end
  end.
(** include/eosio/to_json.hpp:50-58 one escaped character *)
Definition write_escape (c : Z) : bytes :=
  if c =? 34 then [92; 34]
  else if c =? 92 then [92; 92]
  else [92; 117; 48; 48; nibble (Z.shiftr c 4); nibble (Z.land c 15)].
(** include/eosio/to_json.hpp:36-61 the loop *)
Fixpoint write_body (fuel : nat) (b : bytes) : bytes :=
  match fuel with
  | O => []
  | S fuel' =>
      match b with
      | [] => []
      | _ =>
          let (run, r) := span_plain b in
          write_run (List.length run) run ++
          match r with
          | [] => []
          | c :: r' => write_escape c ++ write_body fuel' r'
          end
      end
  end.
(** include/eosio/to_json.hpp:30-63 *)
Definition to_json_string (s : bytes) : bytes :=
  34 :: write_body (S (List.length s)) s ++ [34].
