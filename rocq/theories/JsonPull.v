(** json_token_stream (include/eosio/from_json.hpp:180-340) as the object it is: a rapidjson reader that is advanced by one
    token when a call asks for one, and the token read last. [Json] computes all the tokens of a text at once and
    hands them out; here the reader is run call by call, and goes on after calls that have failed.
    The text is a list of characters: what the reader does to the buffer it is in is the subject of [InPlace]. *)
From Verif Require Import Base Json.

(** include/eosio/from_json.hpp:182-186. [st] and [stk]: state_ and stack_ of rapidjson's reader; [buf]: the characters
    from the position of [ss] to the NUL; [cur]: current_token, [None] for type_unread. [lost]: a syntax error was met inside
    a value, or at a character that cannot stand there. (Where rapidjson stops then is not followed further.) *)
Record reader := Rd { st : pstate; stk : list pstate; buf : bytes; cur : option token; lost : bool }.
(** include/eosio/from_json.hpp:189, reader.h [IterativeParseInit] *)
Definition open_reader (text : bytes) : reader := Rd PStart [] (cstr text) None false.
(** include/eosio/from_json.hpp:191; reader.h [IterativeParseComplete], [IsIterativeParsingCompleteState]
    (state_ is not set to the error state by IterativeParseNext) *)
Definition complete (r : reader) : bool := match st r with PFinish => true | _ => false end.

(** reader.h [IterativeParseNext], called at include/eosio/from_json.hpp:196-198. [fuel] bounds the iterations, each of which reads a character.
    The error of text behind the document comes after the token was delivered. *)
Fixpoint next (fuel : nat) (r : reader) : res unit * reader :=
  if lost r then (Undef "the reader's position after a syntax error", r) else
  match fuel with
  | O => (Undef "fuel", r)
  | S f =>
      match buf r with
      | [] => match st r with
              | PFinish => (Ok tt, Rd PFinish [] [] (cur r) false)
              | s => (Err (handle_error s), Rd s [] [] (cur r) false)
              end
      | b => match step (st r) (stk r) (skip_ws b) with
             | Ok (PFinish, k, t, b') =>
                 match skip_ws b' with
                 | [] => (Ok tt, Rd PFinish k [] t false)
                 | x => (Err E_document_root_not_singular, Rd PFinish k x t false)
                 end
             | Ok (s, k, Some t, b') => (Ok tt, Rd s k b' (Some t) false)
             | Ok (s, k, None, b') => next f (Rd s k b' (cur r) false)
             | Err e => (Err e, Rd (st r) (stk r) b (cur r) true)
             | Undef w => (Err E_terminated, Rd (st r) (stk r) b (cur r) true)
             end
      end
  end.

(** What a call returns: nothing, a bool, a text, maybe a text, a token (none is type_unread). *)
Inductive answer := Done | Flag (b : bool) | Text (s : bytes) | Maybe (s : option bytes) | Token (t : option token).
(** include/eosio/from_json.hpp:193-200 *)
Definition peek (r : reader) : res (option token) * reader :=
  match cur r with
  | Some t => (Ok (Some t), r)
  | None => match next (S (List.length (buf r))) r with
            | (Ok _, r') => (Ok (cur r'), r')
            | (Err e, r') => (Err e, r')
            | (Undef w, r') => (Undef w, r')
            end
  end.
(** include/eosio/from_json.hpp:202 *)
Definition eat (r : reader) : reader := Rd (st r) (stk r) (buf r) None (lost r).
(** include/eosio/from_json.hpp:204-207 *)
Definition get_end (r : reader) : res answer * reader :=
  (match cur r with None => if complete r then Ok Done else Err E_expected_end | Some _ => Err E_expected_end end, r).
(** The pattern of include/eosio/from_json.hpp:208-297: peek at the token; eat it if it is of the kind asked for ([f] is the value then returned),
    else do [no]. *)
Definition take (f : option token -> option answer) (no : res answer) (r : reader) : res answer * reader :=
  match peek r with
  | (Ok t, r') => match f t with Some a => (Ok a, eat r') | None => (no, r') end
  | (Err e, r') => (Err e, r')
  | (Undef w, r') => (Undef w, r')
  end.
(** include/eosio/from_json.hpp:208-214 *)
Definition get_null_pred := take (fun t => match t with Some TkNull => Some (Flag true) | _ => None end) (Ok (Flag false)).
(** include/eosio/from_json.hpp:215-218 *)
Definition get_null (r : reader) : res answer * reader :=
  match get_null_pred r with
  | (Ok (Flag true), r') => (Ok Done, r')
  | (Ok _, r') => (Err E_expected_null, r')
  | x => x
  end.
(** include/eosio/from_json.hpp:220-226 *)
Definition get_bool := take (fun t => match t with Some (TkBool b) => Some (Flag b) | _ => None end) (Err E_expected_bool).
(** include/eosio/from_json.hpp:228-234 *)
Definition get_string := take (fun t => match t with Some (TkString s) => Some (Text s) | _ => None end) (Err E_expected_string).
(** include/eosio/from_json.hpp:236-241 *)
Definition get_start_object := take (fun t => match t with Some TkStartObject => Some Done | _ => None end) (Err E_expected_start_object).
(** include/eosio/from_json.hpp:243-249 *)
Definition get_key := take (fun t => match t with Some (TkKey s) => Some (Text s) | _ => None end) (Err E_expected_key).
(** include/eosio/from_json.hpp:251-257 *)
Definition maybe_get_key := take (fun t => match t with Some (TkKey s) => Some (Maybe (Some s)) | _ => None end) (Ok (Maybe None)).
(** include/eosio/from_json.hpp:259-265 *)
Definition get_end_object_pred := take (fun t => match t with Some TkEndObject => Some (Flag true) | _ => None end) (Ok (Flag false)).
(** include/eosio/from_json.hpp:267-272 *)
Definition get_end_object := take (fun t => match t with Some TkEndObject => Some Done | _ => None end) (Err E_expected_end_object).
(** include/eosio/from_json.hpp:274-280 *)
Definition get_start_array_pred := take (fun t => match t with Some TkStartArray => Some (Flag true) | _ => None end) (Ok (Flag false)).
(** include/eosio/from_json.hpp:282-288 *)
Definition get_end_array_pred := take (fun t => match t with Some TkEndArray => Some (Flag true) | _ => None end) (Ok (Flag false)).
(** include/eosio/from_json.hpp:289-292 *)
Definition get_start_array (r : reader) : res answer * reader :=
  match get_start_array_pred r with
  | (Ok (Flag true), r') => (Ok Done, r')
  | (Ok _, r') => (Err E_expected_start_array, r')
  | x => x
  end.
(** include/eosio/from_json.hpp:294-297 *)
Definition get_end_array (r : reader) : res answer * reader :=
  match get_end_array_pred r with
  | (Ok (Flag true), r') => (Ok Done, r')
  | (Ok _, r') => (Err E_expected_end_array, r')
  | x => x
  end.

(** The calls a user can make (include/eosio/from_json.hpp:191-297). *)
Inductive call :=
| Complete | PeekToken | EatToken | GetEnd
| GetNullPred | GetNull | GetBool | GetString | GetStartObject | GetKey | MaybeGetKey
| GetEndObjectPred | GetEndObject | GetStartArrayPred | GetEndArrayPred | GetStartArray | GetEndArray.
(** include/eosio/from_json.hpp:191-297 *)
Definition do_call (c : call) (r : reader) : res answer * reader :=
  match c with
  | Complete => (Ok (Flag (complete r)), r)
  | PeekToken => match peek r with (Ok t, r') => (Ok (Token t), r') | (Err e, r') => (Err e, r') | (Undef w, r') => (Undef w, r') end
  | EatToken => (Ok Done, eat r)
  | GetEnd => get_end r
  | GetNullPred => get_null_pred r
  | GetNull => get_null r
  | GetBool => get_bool r
  | GetString => get_string r
  | GetStartObject => get_start_object r
  | GetKey => get_key r
  | MaybeGetKey => maybe_get_key r
  | GetEndObjectPred => get_end_object_pred r
  | GetEndObject => get_end_object r
  | GetStartArrayPred => get_start_array_pred r
  | GetEndArrayPred => get_end_array_pred r
  | GetStartArray => get_start_array r
  | GetEndArray => get_end_array r
  end.
(** Calls one after the other; the exceptions of those that fail are caught. *)
Fixpoint run (l : list call) (r : reader) : list (res answer) :=
  match l with
  | [] => []
  | c :: l' => let (a, r') := do_call c r in a :: run l' r'
  end.
