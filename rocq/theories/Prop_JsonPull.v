(** C68: the calls of json_token_stream: what each returns, that a call which fails takes nothing, and how a text with an error ends them. *)
From Verif Require Import Base Json JsonSpec JsonFacts JsonPull JsonPullSpec JsonPullFacts Prop_Json.

(** A JSON text, any calls, in any order, whether they fail or not: the answers are those of a cursor in the tokens of the document. *)
Theorem C68_documents : forall j text calls, json_text j text ->
  talk calls (Cur (tokens j) false None) (run calls (open_reader text)).
Proof.
  intros j text calls H. destruct (run_talk calls _ _ (open_at _ _ _ (C44_reads_every_document _ _ H))) as (an & more & T & R & M).
  rewrite R, (M eq_refl), app_nil_r. exact T.
Qed.
Print Assumptions C68_documents.

(** Any text: the answers are those, up to the first that is an error of the text; it comes from the first call that needs to
    read on behind the tokens which precede the error. *)
Theorem C68_texts : forall text tokens err calls, tokenize text = (tokens, err) ->
  exists answers more, talk calls (Cur tokens false err) answers /\
    run calls (open_reader text) = answers ++ more /\ (err = None -> more = []).
Proof. intros text ts e calls H. apply run_talk, open_at, H. Qed.
Print Assumptions C68_texts.

(** The cursor leaves no choice: calls and tokens determine the answers. *)
Theorem C68_deterministic : forall calls k a1 a2, talk calls k a1 -> talk calls k a2 -> a1 = a2.
Proof. intros calls k a1 a2 H1 H2. exact (talk_det _ _ _ H1 _ H2). Qed.
Print Assumptions C68_deterministic.

(** A call that fails or answers no takes nothing: made again, with nothing else in between, it says the same, and the call that asks for
    what is there gets it; looking at a token does not change what is there either. *)
Theorem C68_failed_call_takes_nothing : forall c t l p e a k, ~ In c [Complete; EatToken; GetEnd] ->
  says c (Cur (t :: l) p e) a k -> (forall b, wanted c t <> Some b) \/ c = PeekToken ->
  k = Cur (t :: l) true e /\ says c k a k /\ forall c' b, wanted c' t = Some b -> exists k', says c' k (Ok b) k'.
Proof.
  intros c t l p e a k N H W.
  assert (E : k = Cur (t :: l) true e).
  { destruct W as [W| ->]; inversion H; subst; try reflexivity; try (exfalso; eapply W; eassumption); try (exfalso; cbn [In] in *; tauto). }
  split; [exact E|]. rewrite E in *. clear k E. split.
  - inversion H; subst; try (exfalso; cbn [In] in *; tauto).
    + apply says_peek.
    + now apply says_other.
  - intros c' b W'. destruct (match c' with PeekToken => true | _ => false end) eqn:P.
    + destruct c'; try discriminate P. cbn [wanted] in W'. injection W' as <-. eexists. apply says_peek.
    + exists (Cur l false e). apply says_wanted; [exact W'|]. intros ->. discriminate P.
Qed.
Print Assumptions C68_failed_call_takes_nothing.

(** The functions by which all the other readers of the model take their tokens (they stop at the first failure) are these calls. *)
Definition answered {A} (f : A -> answer) (x : res (A * jstream)) : res (answer * jstream) := let* (a, s) := x in Ok (f a, s).
Theorem C68_stream_functions : forall c t l p e a k, says c (Cur (t :: l) p e) a k ->
  match match c with
        | GetNullPred => Some (answered Flag (Json.get_null_pred (JS (t :: l) e)))
        | GetNull => Some (let* s := Json.get_null (JS (t :: l) e) in Ok (Done, s))
        | GetBool => Some (answered Flag (Json.get_bool (JS (t :: l) e)))
        | GetString => Some (answered Text (Json.get_string (JS (t :: l) e)))
        | GetStartObject => Some (let* s := Json.get_start_object (JS (t :: l) e) in Ok (Done, s))
        | GetKey => Some (answered Text (Json.get_key (JS (t :: l) e)))
        | MaybeGetKey => Some (answered Maybe (Json.maybe_get_key (JS (t :: l) e)))
        | GetEndObjectPred => Some (answered Flag (Json.get_end_object_pred (JS (t :: l) e)))
        | GetEndObject => Some (let* s := Json.get_end_object (JS (t :: l) e) in Ok (Done, s))
        | GetStartArray => Some (let* s := Json.get_start_array (JS (t :: l) e) in Ok (Done, s))
        | GetEndArrayPred => Some (answered Flag (Json.get_end_array_pred (JS (t :: l) e)))
        | GetEndArray => Some (let* s := Json.get_end_array (JS (t :: l) e) in Ok (Done, s))
        | _ => None
        end with
  | Some r => r = let* x := a in Ok (x, JS (coming k) (broken k))
  | None => True
  end.
Proof.
  intros c t l p e a k H. inversion H; subst; try exact Logic.I.
  - destruct c, t; cbn [wanted] in *; try discriminate; try exact Logic.I;
    match goal with X : Some _ = Some _ |- _ => injection X as <- end; reflexivity.
  - destruct c; try exact Logic.I; destruct t; cbn [wanted] in *; try discriminate; reflexivity.
Qed.
Print Assumptions C68_stream_functions.

(** Not promised: that a text with an error stays refused. After [true x] has been refused, the reader gives the value it has refused and says
    that the text is at its end. *)
Theorem C68_error_is_final_refuted : exists text,
  tokenize text = ([], Some E_document_root_not_singular) /\
  run [GetBool; GetBool; GetEnd; GetBool] (open_reader text) =
    [Err E_document_root_not_singular; Ok (Flag true); Ok Done; Err E_document_root_not_singular].
Proof. exists (str "true x"). split; reflexivity. Qed.
Print Assumptions C68_error_is_final_refuted.

Example C68_example : run [GetBool; GetStartObject; GetEndObjectPred; MaybeGetKey; GetString; GetNull; PeekToken; GetStartArray; EatToken; GetBool; GetEnd; GetEndArray; Complete; PeekToken; Complete; GetEnd; GetEndObject; GetEnd; MaybeGetKey]
    (open_reader (str "{""a"":[1, true]} ")) =
  [Err E_expected_bool; Ok Done; Ok (Flag false); Ok (Maybe (Some (str "a"))); Err E_expected_string; Err E_expected_null; Ok (Token (Some TkStartArray)); Ok Done;
   Ok Done; Err E_expected_bool; Err E_expected_end; Err E_expected_end_array; Ok (Flag false); Ok (Token (Some (TkString (str "1")))); Ok (Flag false); Err E_expected_end; Err E_expected_end_object; Err E_expected_end; Ok (Maybe None)].
Proof. reflexivity. Qed.
(** The error of the text comes when a call needs what is behind it. *)
Example C68_example_error : run [GetStartArray; GetBool; GetString; GetEnd; GetEndArray; GetString] (open_reader (str "[""a"" 1]")) =
  [Ok Done; Err E_expected_bool; Ok (Text (str "a")); Err E_expected_end; Err E_array_miss_comma_or_square_bracket; Undef "the reader's position after a syntax error"].
Proof. reflexivity. Qed.
(** The hypotheses are met: a document of some size, and calls on it. *)
Example C68_example_talk : talk [GetBool; MaybeGetKey; GetStartObject; GetKey] (Cur (tokens sample) false None) (run [GetBool; MaybeGetKey; GetStartObject; GetKey] (open_reader sample_text)).
Proof. exact (C68_documents _ _ _ C44_sample). Qed.
