(** What calls of json_token_stream are to answer, said of the tokens of the text.
    A cursor stands in the list of tokens. *)
From Verif Require Import Base Json JsonPull.

(** What a token is as the answer to a call that wants it; [None]: the call wants another one. *)
Definition wanted (c : call) (t : token) : option answer :=
  match c, t with
  | PeekToken, t => Some (Token (Some t))
  | (GetNull | GetStartObject | GetEndObject | GetStartArray | GetEndArray), _ =>
      if match c, t with
         | GetNull, TkNull | GetStartObject, TkStartObject | GetEndObject, TkEndObject
         | GetStartArray, TkStartArray | GetEndArray, TkEndArray => true
         | _, _ => false
         end then Some Done else None
  | GetNullPred, TkNull | GetEndObjectPred, TkEndObject | GetStartArrayPred, TkStartArray | GetEndArrayPred, TkEndArray => Some (Flag true)
  | GetBool, TkBool b => Some (Flag b)
  | GetString, TkString s => Some (Text s)
  | GetKey, TkKey s => Some (Text s)
  | MaybeGetKey, TkKey s => Some (Maybe (Some s))
  | _, _ => None
  end.
(** The answer of a call that does not meet what it wants. *)
Definition otherwise (c : call) : res answer :=
  match c with
  | GetNullPred | GetEndObjectPred | GetStartArrayPred | GetEndArrayPred => Ok (Flag false)
  | MaybeGetKey => Ok (Maybe None)
  | GetNull => Err E_expected_null
  | GetBool => Err E_expected_bool
  | GetString => Err E_expected_string
  | GetStartObject => Err E_expected_start_object
  | GetKey => Err E_expected_key
  | GetEndObject => Err E_expected_end_object
  | GetStartArray => Err E_expected_start_array
  | GetEndArray => Err E_expected_end_array
  | GetEnd => Err E_expected_end
  | PeekToken => Ok (Token None)
  | Complete => Ok (Flag false)
  | EatToken => Ok Done
  end.
(** The tokens to come, whether the first of them has been looked at, and the error in the text behind the last of them. *)
Record cursor := Cur { coming : list token; seen : bool; broken : option error }.

(** [says c k a k']: at [k] the call [c] answers [a] and leaves [k']. *)
Inductive says : call -> cursor -> res answer -> cursor -> Prop :=
| says_wanted c t l p e a : wanted c t = Some a -> c <> PeekToken -> says c (Cur (t :: l) p e) (Ok a) (Cur l false e)
| says_peek t l p e : says PeekToken (Cur (t :: l) p e) (Ok (Token (Some t))) (Cur (t :: l) true e)
| says_other c t l p e : wanted c t = None -> ~ In c [Complete; EatToken; GetEnd] ->
    says c (Cur (t :: l) p e) (otherwise c) (Cur (t :: l) true e)
| says_over c : ~ In c [Complete; EatToken; GetEnd] ->
    says c (Cur [] false None) (otherwise c) (Cur [] false None)
| says_broken c e : ~ In c [Complete; EatToken; GetEnd] ->
    says c (Cur [] false (Some e)) (Err e) (Cur [] false (Some e))
| says_eat l e : says EatToken (Cur l false e) (Ok Done) (Cur l false e)
| says_eat_seen t l e : says EatToken (Cur (t :: l) true e) (Ok Done) (Cur l false e)
| says_end : says GetEnd (Cur [] false None) (Ok Done) (Cur [] false None)
| says_no_end l p e : l <> [] \/ e <> None -> says GetEnd (Cur l p e) (Err E_expected_end) (Cur l p e)
| says_complete l p : (l = [] \/ p = true /\ exists t, l = [t]) -> says Complete (Cur l p None) (Ok (Flag true)) (Cur l p None)
| says_incomplete l p e : e <> None \/ (2 <= List.length l)%nat \/ l <> [] /\ p = false ->
    says Complete (Cur l p e) (Ok (Flag false)) (Cur l p e).

(** The answers to a series of calls, as far as the text has no error: the first error of the text is the last answer. *)
Inductive talk : list call -> cursor -> list (res answer) -> Prop :=
| talk_none k : talk [] k []
| talk_error c l e k : says c (Cur [] false (Some e)) (Err e) k -> c <> GetEnd -> talk (c :: l) (Cur [] false (Some e)) [Err e]
| talk_call c l k a k' r : says c k a k' ->
    (coming k <> [] \/ broken k = None \/ In c [Complete; EatToken; GetEnd]) -> talk l k' r -> talk (c :: l) k (a :: r).
