(** * Properties C06-C09, C46: names.
    Model: Name.v. Vocabulary: [valid_name_text], [trim_dots] (NameFacts.v), [lex_ltb] (Base.v). *)
From Verif Require Import Base Name NameFacts NameParts.

(** ** C06 *)
Theorem C06_name_text_roundtrip : forall v, 0 <= v < 2 ^ 64 ->
  let t := name_to_string v in
  (List.length t <= 13)%nat /\ valid_name_text t /\ (t <> [] -> last t 0 <> 46) /\
  string_to_name t = v /\ try_string_to_name_strict t = Ok v.
Proof.
  intros v Hv t. split; [apply (name_text_valid v Hv)|]. split; [exact (name_text_valid v Hv)|].
  split; [unfold t; rewrite name_to_string_trim; apply trim_last|].
  split; [exact (name_roundtrip v Hv)|exact (name_strict_roundtrip v Hv)].
Qed.
Print Assumptions C06_name_text_roundtrip.

Theorem C06_name_text_injective : forall v w, 0 <= v < 2 ^ 64 -> 0 <= w < 2 ^ 64 ->
  name_to_string v = name_to_string w -> v = w.
Proof. intros v w Hv Hw E. rewrite <- (name_roundtrip v Hv), E. now apply name_roundtrip. Qed.
Print Assumptions C06_name_text_injective.

(** A text in memory ends at its first NUL, whatever follows it there; so the text of a name is parsed back from memory too. *)
Theorem C06_c_string : forall s rest, ~ In 0 s -> string_to_name_cstr (s ++ 0 :: rest) = string_to_name s.
Proof.
  intros s rest H. unfold string_to_name_cstr. f_equal. induction s as [|c s IH]; [reflexivity|]. cbn [upto_nul app].
  rewrite (proj2 (Z.eqb_neq c 0)) by (intros ->; apply H; now left). f_equal. apply IH. intros K. apply H. now right.
Qed.
Print Assumptions C06_c_string.
Theorem C06_c_string_roundtrip : forall v rest, 0 <= v < 2 ^ 64 -> string_to_name_cstr (name_to_string v ++ 0 :: rest) = v.
Proof.
  intros v rest Hv. rewrite C06_c_string; [exact (name_roundtrip v Hv)|]. intros K.
  destruct (name_text_valid v Hv) as (_ & C & _). rewrite forallb_forall in C. specialize (C 0 K). discriminate C.
Qed.
Print Assumptions C06_c_string_roundtrip.
Example C06_c_string_ex : string_to_name_cstr (str "eosio" ++ 0 :: str ".token") = string_to_name (str "eosio").
Proof. reflexivity. Qed.

Example C06_example :
  name_to_string 6138663591592764928 = str "eosio.token" /\
  name_to_string (2 ^ 64 - 1) = str "zzzzzzzzzzzzj" /\ name_to_string 0 = [].
Proof. vm_compute. auto. Qed.

(** ** C07 *)
Theorem C07_strict_parser : forall s v,
  try_string_to_name_strict s = Ok v <->
    valid_name_text s /\ 0 <= v < 2 ^ 64 /\ name_to_string v = trim_dots s.
Proof.
  intros s v. rewrite strict_accepts. split.
  - intros [H ->]. split; [exact H|]. split; [apply string_to_name_range|]. now apply name_print_parse.
  - intros (H & R & E). split; auto. rewrite <- name_print_parse in E by auto.
    apply C06_name_text_injective in E; auto. apply string_to_name_range.
Qed.
Print Assumptions C07_strict_parser.

Theorem C07_strict_errors : forall s,
  (try_string_to_name_strict s = Err E_invalid_name_char <->
     exists c, In c (firstn 13 s) /\ name_text_char c = false) /\
  (try_string_to_name_strict s = Err E_invalid_name_char13 <->
     forallb name_text_char (firstn 13 s) = true /\
     exists c, nth_error s 12 = Some c /\ name_text_char13 c = false) /\
  (try_string_to_name_strict s = Err E_name_too_long <->
     (13 < List.length s)%nat /\ forallb name_text_char (firstn 13 s) = true /\
     exists c, nth_error s 12 = Some c /\ name_text_char13 c = true) /\
  (forall w, try_string_to_name_strict s <> Undef w).
Proof.
  intros s. rewrite strict_spec.
  destruct (forallb name_text_char (firstn 13 s)) eqn:F.
  - assert (NF : ~ exists c, In c (firstn 13 s) /\ name_text_char c = false).
    { intros (c & I & C). rewrite forallb_forall in F. rewrite (F c I) in C. discriminate. }
    destruct (nth_error s 12) as [c|] eqn:N.
    + assert (L : (12 < List.length s)%nat) by (apply nth_error_Some; congruence).
      destruct (name_text_char13 c) eqn:C.
      * assert (N13 : ~ exists c0, Some c = Some c0 /\ name_text_char13 c0 = false) by (intros (x & E & X); congruence).
        destruct (Nat.leb_spec (List.length s) 13).
        -- repeat split; try discriminate; try tauto; try lia.
        -- repeat split; try discriminate; try tauto; try lia. eauto.
      * repeat split; try discriminate; try tauto; eauto. intros (_ & _ & x & E & X). congruence.
    + repeat split; try discriminate; try tauto; intros H; exfalso.
      * destruct H as (_ & c & X & _). discriminate.
      * destruct H as (_ & _ & c & X & _). discriminate.
  - assert (EF : exists c, In c (firstn 13 s) /\ name_text_char c = false).
    { revert F. generalize (firstn 13 s). induction l as [|c l IH]; [discriminate|]. cbn.
      destruct (name_text_char c) eqn:C; cbn; intros F; [|exists c; auto].
      destruct (IH F) as (x & I & X). exists x. auto. }
    repeat split; try discriminate; auto; intros H; exfalso.
    + destruct H as [H _]. discriminate.
    + destruct H as (_ & H & _). discriminate.
Qed.
Print Assumptions C07_strict_errors.

(** The lenient parser is total (by construction), stays in range and agrees with the
    strict one; the compile time parser of the [_n] literal accepts exactly the same texts. *)
Theorem C07_parsers_agree : forall s,
  0 <= string_to_name s < 2 ^ 64 /\
  (forall v, try_string_to_name_strict s = Ok v -> string_to_name s = v) /\
  (forall v, name_literal s = Some v <-> try_string_to_name_strict s = Ok v).
Proof.
  intros s. split; [apply string_to_name_range|]. split.
  - intros v H. apply strict_accepts in H. symmetry. tauto.
  - intros v. rewrite name_literal_spec. destruct (try_string_to_name_strict s); split; congruence.
Qed.
Print Assumptions C07_parsers_agree.

Example C07_example :
  valid_name_text (str "eosio.token.j") /\
  try_string_to_name_strict (str "eosio.token.k") = Err E_invalid_name_char13 /\
  try_string_to_name_strict (str "eosio.token.jj") = Err E_name_too_long /\
  try_string_to_name_strict (str "Eosio") = Err E_invalid_name_char /\
  string_to_name (str "Eosio") <> 0 /\
  try_string_to_name_strict (str "a..") = Ok (string_to_name (str "a")).
Proof.
  split; [|vm_compute; repeat split; congruence]. split; [cbn; lia|]. split; [reflexivity|].
  intros c H. vm_compute in H. injection H as <-. reflexivity.
Qed.

(** ** C08 *)
Theorem C08_name_order : forall a b, 0 <= a < 2 ^ 64 -> 0 <= b < 2 ^ 64 ->
  (a < b <-> lex_ltb (name_to_string a) (name_to_string b) = true).
Proof. intros a b Ha Hb. rewrite name_order by auto. now rewrite Z.ltb_lt. Qed.
Print Assumptions C08_name_order.
Example C08_example : lex_ltb (str "eosio") (str "eosio.token") = true /\
  string_to_name (str "eosio") < string_to_name (str "eosio.token").
Proof. vm_compute. auto. Qed.

(** ** C09 *)
Theorem C09_json_name : forall s,
  0 <= name_from_json_string s < 2 ^ 64 /\
  (valid_name_text s -> name_to_string (name_from_json_string s) = trim_dots s) /\
  (~ valid_name_text s -> name_from_json_string s = murmur64 s).
Proof.
  intros s. split; [apply hash_name_range|]. unfold name_from_json_string, hash_name. split; intros H.
  - replace (try_string_to_name_strict s) with (Ok (string_to_name s)).
    + now apply name_print_parse.
    + symmetry. apply strict_accepts. auto.
  - destruct (try_string_to_name_strict s) eqn:E; auto. apply strict_accepts in E. tauto.
Qed.
Print Assumptions C09_json_name.

Theorem C09_json_name_roundtrip : forall v, 0 <= v < 2 ^ 64 ->
  name_from_json_string (name_to_json_string v) = v.
Proof.
  intros v Hv. unfold name_from_json_string, name_to_json_string, hash_name.
  now rewrite (name_strict_roundtrip v Hv).
Qed.
Print Assumptions C09_json_name_roundtrip.

(** Two different texts can be read as the same name: the hash of a non-name text can be
    the value of a valid name text, so reading is not injective even on canonical texts. *)
Theorem C09_injective_refuted : exists s t, s <> t /\ ~ valid_name_text s /\ valid_name_text t /\
  trim_dots t = t /\ name_from_json_string s = name_from_json_string t.
Proof.
  exists (str "Hello"), (name_to_string (murmur64 (str "Hello"))).
  pose proof (murmur_range (str "Hello")) as R.
  split; [vm_compute; discriminate|]. split.
  - intros (_ & F & _). vm_compute in F. discriminate.
  - split; [now apply name_text_valid|]. split; [vm_compute; reflexivity|].
    pose proof (C09_json_name_roundtrip _ R) as X. unfold name_to_json_string in X. rewrite X. vm_compute. reflexivity.
Qed.
Print Assumptions C09_injective_refuted.

(** ** C46: length, prefix and suffix of a name are those of its text. *)
Theorem C46_name_length : forall v, 0 <= v < 2 ^ 64 ->
  name_length v = Z.of_nat (List.length (name_to_string v)).
Proof. exact name_length_text. Qed.
Print Assumptions C46_name_length.

Theorem C46_name_parts : forall v p q, 0 <= v < 2 ^ 64 ->
  name_to_string v = p ++ str "." ++ q -> ~ In 46 q ->
  name_to_string (name_suffix v) = q /\ name_to_string (name_prefix v) = trim_dots p.
Proof. intros v p q Hv E N. split; [exact (suffix_text v p q Hv E N)|exact (prefix_text v p q Hv E N)]. Qed.
Print Assumptions C46_name_parts.

Theorem C46_name_parts_no_dot : forall v, 0 <= v < 2 ^ 64 -> ~ In 46 (name_to_string v) ->
  name_suffix v = v /\ name_prefix v = v.
Proof. intros v Hv N. split; [now apply suffix_no_dot|now apply prefix_no_dot]. Qed.
Print Assumptions C46_name_parts_no_dot.

Example C46_example : let v := string_to_name (str "a.b.eosiotokj") in
  name_to_string v = str "a.b" ++ str "." ++ str "eosiotokj" /\ ~ In 46 (str "eosiotokj") /\
  name_suffix v = string_to_name (str "eosiotokj") /\ name_prefix v = string_to_name (str "a.b") /\ name_length v = 13.
Proof. split; [reflexivity|]. split; [cbn; intuition congruence|]. vm_compute. auto. Qed.
