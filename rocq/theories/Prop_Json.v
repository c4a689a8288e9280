(** * C25 (JSON string output) and C44 (JSON reader token stream). *)
From Verif Require Import Base Hex Utf8 Json JsonSpec JsonStrFacts JsonFacts JsonSound JsonWrite.

(** ** C44: every JSON text, with any white space and any escapes, is turned into
    exactly the token sequence of the document it denotes, with no error behind it. *)
Theorem C44_reads_every_document : forall j t,
  json_text j t -> tokenize t = (tokens j, None).
Proof. intros j t H. exact (tokenize_complete false j t H). Qed.
Print Assumptions C44_reads_every_document.

(** Conversely a text that is read to its end without error (here: its part before a
    NUL) is a JSON text and its tokens are those of the document. [json_text_lax]
    only adds the escapes of lone low surrogates to [json_text]. *)
Theorem C44_accepts_only_json : forall t ts,
  bytes_ok t -> tokenize t = (ts, None) ->
  exists j, json_text_lax j (cstr t) /\ ts = tokens j.
Proof. exact tokenize_sound. Qed.
Print Assumptions C44_accepts_only_json.

(** Two texts of the same document are indistinguishable to the caller. *)
Theorem C44_white_space_is_irrelevant : forall j t t',
  json_text j t -> json_text j t' -> open_json t = open_json t'.
Proof.
  intros j t t' H H'. unfold open_json. rewrite (C44_reads_every_document _ _ H), (C44_reads_every_document _ _ H'). reflexivity.
Qed.
Print Assumptions C44_white_space_is_irrelevant.

(** The hypotheses are met: a text with white space, escapes, nesting and numbers. *)
Definition sample : jv :=
  JObj [(str "a", JArr [JNum (str "-1.50e+3"); JNull]); (str "b", JStr [195; 169; 10])].
Definition sample_text : bytes :=
  str " { ""a"" :[ -1.50e+3 ,null] , ""b"":""\u00e9\n""}".
Example C44_sample : json_text sample sample_text.
Proof.
  exists [32], (123 :: (([32] ++ 34 :: [97] ++ 34 :: [32] ++ 58 :: [] ++ (91 :: (([32] ++ str "-1.50e+3" ++ [32] ++ 44 :: ([] ++ str "null" ++ [])) ++ [93])) ++ [32] ++ 44 ::
     ([32] ++ 34 :: [98] ++ 34 :: [] ++ 58 :: [] ++ (34 :: (92 :: 117 :: str "00e9" ++ 92 :: 110 :: []) ++ [34]) ++ [])) ++ [125])), [].
  split; [repeat constructor; fail|]. split; [|split; [constructor|reflexivity]].
  apply Vt_obj. apply Mt_cons; try (repeat constructor; auto; fail).
  - apply (St_char false 97 [] []); [unfold scalar; lia|lia..|constructor].
  - apply Vt_arr. apply It_cons; try (repeat constructor; auto; fail).
    + constructor. exists [45], [49], [46; 53; 48], [101; 43; 51]. split.
      * repeat split; [auto|right; exists 49, []; repeat split; [lia|lia|constructor]
            |right; exists [53; 48]; repeat split; [discriminate|repeat constructor; lia]
            |right; exists 101, [43], [51]; repeat split; auto; [discriminate|repeat constructor; lia]].
      * intros c sg d E Hsg Hd Hn. injection E as <- E.
        destruct (sign_unique sg d [43] [51] Hsg (or_intror (or_introl eq_refl)) Hd ltac:(repeat constructor; lia) (eq_sym E)) as [-> ->].
        vm_compute. discriminate.
  - apply Mt_one; try (repeat constructor; auto; fail).
    + apply (St_char false 98 [] []); [unfold scalar; lia|lia..|constructor].
    + constructor. apply (St_unit false 233 (str "00e9") [10] [92; 110]).
      * exists 48, 48, 101, 57, 0, 0, 14, 9. repeat split; unfold hexdigit; lia.
      * unfold scalar; lia.
      * apply (St_short false 110 10 [] []); [cbn; auto 10|constructor].
Qed.
Example C44_sample_tokens : tokenize sample_text =
  ([TkStartObject; TkKey (str "a"); TkStartArray; TkString (str "-1.50e+3"); TkNull; TkEndArray;
    TkKey (str "b"); TkString [195; 169; 10]; TkEndObject], None).
Proof. vm_compute. reflexivity. Qed.
(** Texts that are not JSON are refused, with the error of the offending place. *)
Example C44_errors :
  map (fun s => snd (tokenize (str s)))
    [""; " "; "1 2"; "[1,]"; "{""a"":1,}"; "{""a""}"; "[1 2]"; "01"; "1."; "1e"; "1e309"; """\x"""; """abc"; "nul"]%string =
  [Some E_document_empty; Some E_value_invalid; Some E_document_root_not_singular; Some E_value_invalid;
   Some E_object_miss_name; Some E_object_miss_colon; Some E_array_miss_comma_or_square_bracket;
   Some E_document_root_not_singular; Some E_number_miss_fraction; Some E_number_miss_exponent; Some E_number_too_big;
   Some E_string_escape_invalid; Some E_string_miss_quotation_mark; Some E_value_invalid].
Proof. vm_compute. reflexivity. Qed.

(** The digits after the 17th significant one do not count towards the exponent. *)
Example C44_exponents :
  map (fun s => snd (tokenize (str s)))
    ["1.00000000000000000e325"; "1.00000000000000000e326"; "1.00000000000000000000e326"; "0.00000000000000000000001e331"; "0.00000000000000000000001e332"]%string =
  [None; Some E_number_too_big; Some E_number_too_big; None; Some E_number_too_big].
Proof. vm_compute. reflexivity. Qed.

(** ** C25: for every byte string the text written is a JSON string: printable, well
    formed UTF-8, and denoting the contents with every byte that is not part of a
    well formed UTF-8 character replaced by '?'. *)
Theorem C25_output_is_a_json_string : forall s, bytes_ok s ->
  exists c, sanitized s c /\ json_text (JStr c) (to_json_string s) /\
            printable (to_json_string s) /\ utf8 (to_json_string s).
Proof.
  intros s Hb. destruct (to_json_string_spec s Hb) as (body & c & E & Hs & Ht & Hp & Hu).
  exists c. split; auto. split; auto.
  exists [], (to_json_string s), []. split; [constructor|]. split; [|split; [constructor|rewrite app_nil_r; reflexivity]].
  apply to_json_string_value; auto.
Qed.
Print Assumptions C25_output_is_a_json_string.

(** [sanitized] determines the contents, leaves well formed UTF-8 alone and always
    yields well formed UTF-8. *)
Theorem C25_sanitized : forall s c, sanitized s c ->
  utf8 c /\ (utf8 s -> c = s) /\ (forall c', sanitized s c' -> c' = c).
Proof.
  intros s c H. split; [eapply sanitized_is_utf8; eauto|]. split.
  - intros Hu. eapply sanitized_fun; [exact H|apply sanitized_utf8; auto].
  - intros c' H'. eapply sanitized_fun; eauto.
Qed.
Print Assumptions C25_sanitized.

(** Inside the quotes no quote, backslash or control character is left bare: the
    output of well formed contents is read back as exactly these contents. *)
Theorem C25_reads_back : forall s, utf8 s ->
  open_json (to_json_string s) = JS [TkString s] None.
Proof.
  intros s Hu. assert (Hb := utf8_bytes_ok _ Hu).
  destruct (C25_output_is_a_json_string s Hb) as (c & Hs & Hj & _).
  rewrite (proj1 (proj2 (C25_sanitized s c Hs)) Hu) in Hj.
  unfold open_json. rewrite (C44_reads_every_document _ _ Hj). reflexivity.
Qed.
Print Assumptions C25_reads_back.

Example C25_sample : to_json_string [97; 34; 195; 169; 10; 255; 127] =
  str """a\""" ++ [195; 169] ++ str "\u000A?\u007F""".
Proof. vm_compute. reflexivity. Qed.
Example C25_utf8_sample : utf8 ([240; 159; 152; 128] ++ str "x").
Proof.
  change [240; 159; 152; 128] with (utf8_enc 128512). constructor; [unfold scalar; lia|].
  apply utf8_ascii. apply Forall_cons; [vm_compute; split; congruence|apply Forall_nil].
Qed.
