(** * The JSON reader at work in the caller's buffer
    (include/eosio/from_json.hpp:180-341).

    Json.v gives the tokens of a text. This file gives the same reader as it
    runs: kParseInsituFlag (include/eosio/from_json.hpp:196) makes it decode every
    string over its own source text, and value_string and key
    (include/eosio/from_json.hpp:175-177, 309-328) are views into the buffer. Only
    strings are written; white space, brackets, literals and numbers are only read,
    and are taken from Json.v. The parts of rapidjson are modelled from its
    published source, as in Json.v. *)
From Verif Require Import Base Hex Utf8 Json.

(** ** rapidjson stream.h [GenericInsituStringStream]: where the next character is
    read and where the next one is written. *)
Record istream := IS { ibuf : bytes; isrc : nat; idst : nat }.
Definition outside : string := "access outside the buffer".
(** stream.h [Peek] *)
Definition ipeek (s : istream) : res Z :=
  match nth_error (ibuf s) (isrc s) with Some c => Ok c | None => Undef outside end.
(** stream.h [Take] *)
Definition itake (s : istream) : res (Z * istream) :=
  let* c := ipeek s in Ok (c, IS (ibuf s) (S (isrc s)) (idst s)).
(** stream.h [Put] *)
Definition iput (c : Z) (s : istream) : res istream :=
  if (idst s <? List.length (ibuf s))%nat
  then Ok (IS (firstn (idst s) (ibuf s) ++ c :: skipn (S (idst s)) (ibuf s)) (isrc s) (S (idst s)))
  else Undef outside.
(** Several characters put one after the other (encodings.h [UTF8::Encode]). *)
Fixpoint iputs (t : bytes) (s : istream) : res istream :=
  match t with
  | [] => Ok s
  | c :: t' => let* s := iput c s in iputs t' s
  end.

(** How reading a string ends: done, with an error (the buffer is changed all the
    same), or with an access outside the buffer. *)
Inductive ires := IDone (s : istream) | IFail (m : bytes) (e : error) | IBad.
Definition ibind {A} (m : bytes) (r : res A) (k : A -> ires) : ires :=
  match r with Ok a => k a | Err e => IFail m e | Undef _ => IBad end.

(** encodings.h [UTF8::Validate], RAPIDJSON_COPY: os.Put(c = is.Take()). *)
Definition icopy (s : istream) : res (Z * istream) :=
  let* (c, s) := itake s in let* s := iput c s in Ok (c, s).
(** encodings.h [UTF8::Validate]: RAPIDJSON_COPY(); RAPIDJSON_TRANS(mask) for each
    further byte. A byte that does not fit does not end the sequence: all are
    taken and copied. *)
Fixpoint ifollow (masks : list Z) (s : istream) : res (bool * istream) :=
  match masks with
  | [] => Ok (true, s)
  | k :: masks' =>
      let* (c, s) := icopy s in
      let* (ok, s) := ifollow masks' s in
      Ok (negb (Z.land (get_range c) k =? 0) && ok, s)
  end.
(** encodings.h [UTF8::Validate], the cases of the switch; none for default. *)
Definition masks_of (range : Z) : option (list Z) :=
  if range =? 2 then Some [112]
  else if range =? 3 then Some [112; 112]
  else if range =? 4 then Some [80; 112]
  else if range =? 5 then Some [16; 112; 112]
  else if range =? 6 then Some [112; 112; 112]
  else if range =? 10 then Some [32; 112]
  else if range =? 11 then Some [96; 112; 112]
  else None.
(** encodings.h [UTF8::Validate] *)
Definition ivalidate (s : istream) : res (bool * istream) :=
  let* (c, s) := icopy s in
  if c <? 128 then Ok (true, s)
  else match masks_of (get_range c) with Some l => ifollow l s | None => Ok (false, s) end.

(** reader.h [ParseHex4] *)
Fixpoint ihex (n : nat) (acc : Z) (s : istream) : res (Z * istream) :=
  match n with
  | O => Ok (acc, s)
  | S n' =>
      let* c := ipeek s in
      match get_digit c with
      | Some d => let* (_, s) := itake s in ihex n' (acc * 16 + d) s
      | None => Err E_string_unicode_escape_invalid_hex
      end
  end.
(** reader.h [Consume] *)
Definition iconsume (x : Z) (e : error) (s : istream) : res istream :=
  let* c := ipeek s in
  if c =? x then let* (_, s) := itake s in Ok s else Err e.

(** reader.h [ParseStringToStream] with the same stream as input and output. *)
Fixpoint ip_string (fuel : nat) (s : istream) : ires :=
  match fuel with
  | O => IFail (ibuf s) E_string_miss_quotation_mark
  | S fuel' =>
      let m := ibuf s in
      ibind m (ipeek s) (fun c =>
      if c =? 92 then
        ibind m (itake s) (fun '(_, s) =>
        ibind m (ipeek s) (fun e =>
        match escape_char e with
        | Some x =>
            ibind m (itake s) (fun '(_, s) =>
            ibind m (iput x s) (fun s => ip_string fuel' s))
        | None =>
            if e =? 117 then
              ibind m (itake s) (fun '(_, s) =>
              ibind m (ihex 4 0 s) (fun '(cp, s) =>
              if (55296 <=? cp) && (cp <=? 56319) then
                ibind m (iconsume 92 E_string_unicode_surrogate_invalid s) (fun s =>
                ibind m (iconsume 117 E_string_unicode_surrogate_invalid s) (fun s =>
                ibind m (ihex 4 0 s) (fun '(cp2, s) =>
                if (cp2 <? 56320) || (57343 <? cp2) then IFail m E_string_unicode_surrogate_invalid
                else
                  ibind m (iputs (utf8_encode (Z.lor (Z.shiftl (cp - 55296) 10) (cp2 - 56320) + 65536)) s)
                    (fun s => ip_string fuel' s))))
              else ibind m (iputs (utf8_encode cp) s) (fun s => ip_string fuel' s)))
            else IFail m E_string_escape_invalid
        end))
      else if c =? 34 then
        ibind m (itake s) (fun '(_, s) => ibind m (iput 0 s) IDone)
      else if c <? 32 then
        IFail m (if c =? 0 then E_string_miss_quotation_mark else E_string_invalid_encoding)
      else
        ibind m (ivalidate s) (fun '(ok, s) =>
        if ok then ip_string fuel' s else IFail (ibuf s) E_string_invalid_encoding))
  end.

(** ** The tokens, with views: include/eosio/from_json.hpp:161-178. A view is its
    place in the buffer and its size. *)
Inductive view :=
| VNull
| VBool (b : bool)
| VString (at_ size : nat)
| VStartObject
| VKey (at_ size : nat)
| VEndObject
| VStartArray
| VEndArray.
(** A token of Json.v whose text, if any, stands unchanged in the buffer (reader.h
    [ParseNumber]: the number is not copied; from_json.hpp:309, 315-319). *)
Definition view_of (t : token) (p n : nat) : view :=
  match t with
  | TkNull => VNull
  | TkBool b => VBool b
  | TkString _ => VString p n
  | TkStartObject => VStartObject
  | TkKey _ => VKey p n
  | TkEndObject => VEndObject
  | TkStartArray => VStartArray
  | TkEndArray => VEndArray
  end.

(** The text from a place to the next NUL; none when the buffer ends before. *)
Definition text_from (m : bytes) (p : nat) : option bytes :=
  let t := skipn p m in if existsb (Z.eqb 0) t then Some (cstr t) else None.

Inductive sres := SOk (st : pstate) (stk : list pstate) (v : option view) (m : bytes) (p : nat) | SFail (m : bytes) (e : error) | SBad.
(** reader.h [Predict], [Transit], [ParseString], [ParseValue]: one step at [p],
    where the text [b], without leading white space, begins. *)
Definition istep (st : pstate) (stk : list pstate) (m : bytes) (p : nat) (b : bytes) : sres :=
  let plain :=
    match step st stk b with
    | Ok (st', stk', t, r) =>
        let n := (List.length b - List.length r)%nat in
        SOk st' stk' (option_map (fun t => view_of t p n) t) m (p + n)
    | Err e => SFail m e
    | Undef _ => SBad
    end in
  let text (k : nat -> nat -> view) st' :=
    match ip_string (List.length b) (IS m (S p) (S p)) with
    | IDone s => SOk st' stk (Some (k (S p) (idst s - 1 - S p)%nat)) (ibuf s) (isrc s)
    | IFail m' e => SFail m' e
    | IBad => SBad
    end in
  match b with
  | c :: _ =>
      if c =? 34 then
        match st with
        | PObjInit | PMComma => text VKey PKey
        | _ => match after st with Some st' => text VString st' | None => SFail m (handle_error st) end
        end
      else plain
  | [] => plain
  end.

(** The reader between two calls: buffer, place, parser state. *)
Record pull := Pull { pbuf : bytes; ppos : nat; pst : pstate; pstk : list pstate }.
(** What one call of [peek_token] on an eaten token does (from_json.hpp:193-200):
    a token, no token because the document is complete, an exception, or an
    access outside the buffer. *)
Inductive outcome := OToken (v : view) (s : pull) | OComplete (s : pull) | OFail (m : bytes) (e : error) | OBad.
(** reader.h [IterativeParseNext]. [fuel] bounds the number of iterations; each
    consumes at least one character. *)
Fixpoint icall (fuel : nat) (st : pstate) (stk : list pstate) (m : bytes) (p : nat) : outcome :=
  match fuel with
  | O => OFail m E_terminated
  | S fuel' =>
      match text_from m p with
      | None => OBad
      | Some [] =>
          match st with PFinish => OComplete (Pull m p st stk) | _ => OFail m (handle_error st) end
      | Some b =>
          let b1 := skip_ws b in
          match istep st stk m (p + (List.length b - List.length b1)) b1 with
          | SOk st' stk' v m' p' =>
              match st', v with
              | PFinish, Some v =>
                  match text_from m' p' with
                  | None => OBad
                  | Some r =>
                      let r1 := skip_ws r in
                      match r1 with
                      | [] => OToken v (Pull m' (p' + (List.length r - List.length r1)) st' stk')
                      | _ => OFail m' E_document_root_not_singular
                      end
                  end
              | _, Some v => OToken v (Pull m' p' st' stk')
              | _, None => icall fuel' st' stk' m' p'
              end
          | SFail m' e => OFail m' e
          | SBad => OBad
          end
      end
  end.
(** include/eosio/from_json.hpp:189: the constructor [json_token_stream(char* json)]. *)
Definition pull_open (buffer : bytes) : pull := Pull buffer 0 PStart [].
(** include/eosio/from_json.hpp:193-200: the next token. *)
Definition pull_next (s : pull) : outcome :=
  icall (S (List.length (pbuf s))) (pst s) (pstk s) (pbuf s) (ppos s).

(** ** The buffers of the library's callers *)
(** src/abieos.cpp:107-108 (abieos_set_abi): a std::string, whose data() ends with
    one NUL. *)
Definition buffer_set_abi (text : bytes) : bytes := text ++ [0].
(** src/abieos.hpp:741-747 (json_to_bin): three NULs are appended to the string,
    which has one of its own. *)
Definition buffer_json_to_bin (text : bytes) : bytes := text ++ [0; 0; 0; 0].
