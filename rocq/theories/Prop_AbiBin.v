(** * C28 (ABI driven binary -> JSON), C33 (its output is JSON), C32 (its nesting is bounded)

    Vocabulary: [loaded a t p m] (AbiUse.v): definition [a] was loaded and the text [t] looked up;
    [aval], [enc], [form], [shows], [settled] (AbiValue.v): the values of a type, their binary
    forms and their JSON form; [print] (AbiScalar.v): compact JSON text. *)
From Verif Require Import Base Stream TypedBin TypedSpec Asset Json JsonSpec JsonFacts JsonWrite JsonPrint Prop_Json Keys Abi AbiSpec AbiFacts AbiLoad Prop_Abi AbiScalar AbiScalarFacts
  AbiValue Machine AbiBin AbiBinFacts AbiBinSound AbiBinSafe AbiDoc AbiUse.

(** ** C28 *)
(** Every value of the type, in its binary form and followed by any data which does not
    suggest another reading, is printed as its JSON form, and exactly its bytes are read. *)
Theorem C28_decodes_every_value E a t p m v j rest :
  loaded a t p m -> shows E m 128 true p v j -> settled m rest p v ->
  bin_to_json E m p (enc v ++ rest) (Ok (print j, rest)).
Proof.
  intros L S D. pose proof (loaded_sound _ _ _ _ L) as SM. apply bin_to_json_eq. symmetry.
  apply (proj1 (bv_complete E m SM) 128%nat true p v j S); auto. eapply (proj1 (shows_form_enc E m)); eauto.
Qed.
Print Assumptions C28_decodes_every_value.

(** Exactly which buffers are decoded and to what (extension fields last). *)
Theorem C28_decodes_exactly E a t p m bin text rest :
  loaded a t p m -> trailing_extensions m -> small bin ->
  bin_to_json E m p bin (Ok (text, rest)) <->
  exists v pre j, bin = pre ++ rest /\ shows E m 128 true p v j /\ form v pre /\ settled m rest p v /\ text = print j.
Proof.
  intros L TR Hs. pose proof (loaded_sound _ _ _ _ L) as SM. rewrite bin_to_json_eq. split.
  - intros H. pose proof (bv_sound E m SM TR 128 true p bin (loaded_type _ _ _ _ L) Hs) as R. rewrite <- H in R. cbn [read_ok] in R.
    destruct R as (v & pre & j & E1 & S & F & E2 & D). exists v, pre, j. auto 10.
  - intros (v & pre & j & -> & S & F & D & ->). symmetry. now apply (proj1 (bv_complete E m SM) 128%nat true p v j S).
Qed.
Print Assumptions C28_decodes_exactly.

(** For every buffer and every loaded definition the call comes to an end, having read a
    prefix of the buffer, or with one of the listed errors. The three listed hazards are:
    a bool byte other than 0 and 1, an overflowing counter or time, and a float whose text is
    too long for its buffer (C51). *)
Theorem C28_outcome E a t p m bin :
  loaded a t p m -> small bin ->
  exists r, bin_to_json E m p bin r /\
  match r with
  | Ok (text, rest) => exists pre, bin = pre ++ rest
  | Err e => In e [E_overrun; E_invalid_varuint_encoding; E_array_size_mismatch; E_bad_variant_index; E_length_error;
                   E_recursion_limit_reached; E_invalid_signature]
  | Undef w => In w ["bool object with a representation other than 0 or 1"; "signed overflow"; "buffer overflow"]%string
  end.
Proof.
  intros L Hs. exists (bval E m 128 true p bin). split; [now apply bin_to_json_eq|].
  pose proof (bv_safe E m (loaded_sound _ _ _ _ L) 128 true p bin (loaded_type _ _ _ _ L) Hs) as R.
  destruct (bval E m 128 true p bin) as [[x y]|e|w]; cbn [read_ok] in R; exact R.
Qed.
Print Assumptions C28_outcome.

(** The same data, once more: the JSON form determines the text and the value determines the
    JSON form. *)
Theorem C28_deterministic E m p bin r1 r2 : bin_to_json E m p bin r1 -> bin_to_json E m p bin r2 -> r1 = r2.
Proof. rewrite !bin_to_json_eq. congruence. Qed.
Print Assumptions C28_deterministic.

(** ** C32 *)
(** For every table of types, recursive types included, and every input: the conversion ends,
    and no state on the way has more than 128 stack entries. *)
Theorem C32_bin_to_json_ends E m p bin : exists r, bin_to_json E m p bin r.
Proof. exists (bval E m 128 true p bin). now apply bin_to_json_eq. Qed.
Print Assumptions C32_bin_to_json_ends.

Lemma bstart_stack E m c : forall ext p s s', bstart E m c ext p s = Ok s' -> (List.length (b_stack s') <= S (List.length (b_stack s)))%nat.
Proof.
  induction c as [|c IH]; intros ext p s s' H; [discriminate|]. cbn [bstart] in H. apply bind_Ok in H as (d & _ & H).
  destruct d; try discriminate.
  - apply bind_Ok in H as ([v r] & _ & H). apply bind_Ok in H as (x & _ & H).
    match type of H with Ok ?z = Ok s' => assert (s' = z) by congruence end. subst s'. cbn. lia.
  - apply bind_Ok in H as ([v r] & _ & H).
    destruct v as [ |[]| | | | | ]; try (match type of H with Ok ?z = Ok s' => assert (s' = z) by congruence end; subst s'; cbn; lia).
    apply IH in H. exact H.
  - now apply IH in H.
  - apply bind_Ok in H as ([v r] & _ & H). match type of H with Ok ?z = Ok s' => assert (s' = z) by congruence end. subst s'. cbn. lia.
  - match type of H with Ok ?z = Ok s' => assert (s' = z) by congruence end. subst s'. cbn. lia.
  - match type of H with Ok ?z = Ok s' => assert (s' = z) by congruence end. subst s'. cbn. lia.
Qed.
Theorem C32_bin_to_json_stack E m p bin s0 s :
  bstart E m chain_budget true p (BS bin [] []) = Ok s0 -> star (bstep E m) s0 s -> (List.length (b_stack s) <= 128)%nat.
Proof.
  intros H0 H. apply bstart_stack in H0. cbn [b_stack List.length] in H0.
  assert (B : (List.length (b_stack s0) <= 128)%nat) by lia. clear H0.
  induction H as [|s s1 s2 H _ IH]; [exact B|]. apply IH. unfold bstep in H. destruct (b_stack s); [discriminate|].
  apply bind_Ok in H as (x & _ & H). apply bind_Ok in H as (u & C & H). assert (s1 = x) by congruence. subst x.
  unfold check in C. destruct (Nat.leb (List.length (b_stack s1)) max_stack_size) eqn:LE; [|discriminate]. now apply Nat.leb_le in LE.
Qed.
Print Assumptions C32_bin_to_json_stack.

(** ** C33 *)
(** Every successful result is one JSON document: the JSON form of the value read, in which
    bytes of strings which are not well formed UTF-8 are replaced ([clean], C25). *)
Theorem C33_output_is_json E a t p m bin text rest :
  loaded a t p m -> trailing_extensions m -> abi_names_ok a -> small bin ->
  bin_to_json E m p bin (Ok (text, rest)) ->
  exists v pre j c, bin = pre ++ rest /\ form v pre /\ shows E m 128 true p v j /\ clean j c /\ json_text c text.
Proof.
  intros L TR N Hs H. apply (C28_decodes_exactly E a t p m bin text rest L TR Hs) in H as (v & pre & j & E1 & S & F & D & ->).
  assert (W : writable j) by (eapply (proj1 (shows_writable E m (loaded_names _ _ _ _ N L))); eauto).
  destruct (print_text j W) as (c & C & T). exists v, pre, j, c. auto.
Qed.
Print Assumptions C33_output_is_json.
(** ... hence our own reader reads it back without error. *)
Theorem C33_reads_back E a t p m bin text rest :
  loaded a t p m -> trailing_extensions m -> abi_names_ok a -> small bin ->
  bin_to_json E m p bin (Ok (text, rest)) -> exists j, tokenize text = (tokens j, None).
Proof.
  intros L TR N Hs H. destruct (C33_output_is_json E a t p m bin text rest L TR N Hs H) as (v & pre & j & c & _ & _ & _ & _ & T).
  exists c. now apply C44_reads_every_document.
Qed.
Print Assumptions C33_reads_back.

(** ** Examples and findings *)
Definition no_floats : float_lib := {| fl_parse := fun _ _ => None; ov := Wrap |}.
Definition ex_bin : bytes := [0;0;0;0;0;0;0;0] ++ [2; 0] ++ [2; 1;0;0;0;0;0;0;0; 2;0;0;0;0;0;0;0] ++ [0] ++ [77].
(** Running the model, for the examples. *)
Lemma loaded_run a t p m : (let* c := convert a in let* (q, c2) := abi_get_type c t in Ok (q, abi_types c2)) = Ok (p, m) -> loaded a t p m.
Proof.
  intros H. apply bind_Ok in H as (c & Hc & H). apply bind_Ok in H as ([q c2] & H2 & H).
  assert (q = p /\ m = abi_types c2) as [-> ->] by (split; congruence). exists c, c, c2. split; [exact Hc|]. split; [constructor|]. split; [exact H2|reflexivity].
Qed.
Lemma run_ok E a t bin p r :
  (let* c := convert a in let* (q, c2) := abi_get_type c t in let* x := bval E (abi_types c2) 128 true q bin in Ok (q, x)) = Ok (p, r) ->
  exists m, loaded a t p m /\ bin_to_json E m p bin (Ok r).
Proof.
  intros H. apply bind_Ok in H as (c & Hc & H). apply bind_Ok in H as ([q c2] & H2 & H). apply bind_Ok in H as (x & Hx & H).
  assert (q = p /\ x = r) as [-> ->] by (split; congruence). exists (abi_types c2). split; [|now apply bin_to_json_eq].
  exists c, c, c2. split; [exact Hc|]. split; [constructor|]. split; [exact H2|reflexivity].
Qed.
Example ex_loaded : exists m, loaded ex_abi (str "derived") (str "derived") m /\
  bin_to_json no_floats m (str "derived") ex_bin
    (Ok (str "{""who"":"""",""v"":[""derived[]"",[]],""more"":[""1"",""2""],""self"":null}", [77])).
Proof.
  apply run_ok. vm_compute. reflexivity.
Qed.

(** An extension field in front of a required field: when the data ends before the extension,
    the field is skipped but the separator of the next one is written. The result is not JSON. *)
Definition ext_first_abi : abi_def :=
  AbiDef (str "eosio::abi/1.1") []
    [StructDef (str "s") [] [FieldDef (str "a") (str "int8$"); FieldDef (str "b") (str "e")]; StructDef (str "e") [] []]
    [] [] [] [] [] [].
Theorem C33_ext_first_refuted : exists m text,
  loaded ext_first_abi (str "s") (str "s") m /\
  bin_to_json no_floats m (str "s") [] (Ok (text, [])) /\ text = str "{,""b"":{}}" /\ forall j, ~ json_text j text.
Proof.
  destruct (run_ok no_floats ext_first_abi (str "s") [] (str "s") (str "{,""b"":{}}", [])) as (m & L & R); [vm_compute; reflexivity|].
  exists m, (str "{,""b"":{}}"). split; [exact L|]. split; [exact R|]. split.
  - reflexivity.
  - intros j T. apply C44_reads_every_document in T. vm_compute in T. discriminate.
Qed.
Print Assumptions C33_ext_first_refuted.

(** An array of items without contents: the announced size is not bounded by the data. Five
    bytes make the decoder count beyond an int. *)
Lemma bitems_count m rec q o bs : rec false q bs = Ok (o, bs) -> forall n pos, 0 <= pos -> 2 ^ 31 <= pos + Z.of_nat n ->
  bitems rec q n pos bs = Undef "signed overflow" \/ m = O.
Proof.
  intros H. induction n as [|n IH]; intros pos Hp Hn; cbn [bitems]; destruct (Z.ltb_spec pos (2 ^ 31)) as [Lp|Lp]; cbn [bind]; try lia; try (left; reflexivity).
  rewrite H. cbn [bind]. destruct (IH (pos + 1) ltac:(lia) ltac:(lia)) as [->| ->]; auto.
Qed.
Lemma big_array E m k q o r n : bval E m k false q r = Ok (o, r) -> 2 ^ 31 <= n ->
  bitems (bval E m k) q (Z.to_nat n) 0 r = Undef "signed overflow".
Proof.
  intros H Hn. destruct (bitems_count 1 (bval E m k) q o r H (Z.to_nat n) 0 ltac:(lia) ltac:(rewrite Z2Nat.id by lia; lia)) as [G|G]; [exact G|discriminate].
Qed.
Definition e_table : amap := Eval vm_compute in
  match (let* c := convert ext_first_abi in abi_get_type c (str "e[]")) with Ok (_, c) => abi_types c | _ => [] end.
Theorem C28_empty_items_refuted : exists m,
  loaded ext_first_abi (str "e[]") (str "e[]") m /\
  bin_to_json no_floats m (str "e[]") [255; 255; 255; 255; 15] (Undef "signed overflow").
Proof.
  exists e_table. split.
  - apply loaded_run. vm_compute. reflexivity.
  - apply bin_to_json_eq. rewrite (bv_cont no_floats e_table 128 true (str "e[]") _ (AArray (str "e")) eq_refl eq_refl). cbn [bctx bcont].
    assert (V : varuint32_from_bin [255; 255; 255; 255; 15] = Ok (4294967295, [])) by (vm_compute; reflexivity).
    rewrite V. cbn [bind]. rewrite (big_array no_floats e_table 127 (str "e") (str "{}") [] 4294967295); [reflexivity|vm_compute; reflexivity|vm_compute; discriminate].
Qed.
Print Assumptions C28_empty_items_refuted.

(** The hypotheses are met: a struct with its trailing extension left out, and with it. *)
Definition tail_table : amap := Eval vm_compute in
  match (let* c := convert ex_abi in abi_get_type c (str "tail")) with Ok (_, c) => abi_types c | _ => [] end.
Example C28_hypotheses :
  loaded ex_abi (str "tail") (str "tail") tail_table /\
  (shows no_floats tail_table 128 true (str "tail") (AVStruct [AVBase B_int8 (VInt (-5))]) (JObj [(str "x", JNum (str "-5"))]) /\
   settled tail_table [] (str "tail") (AVStruct [AVBase B_int8 (VInt (-5))])) /\
  (shows no_floats tail_table 128 true (str "tail") (AVStruct [AVBase B_int8 (VInt 7); AVList [AVBase B_uint64 (VInt 9)]])
     (JObj [(str "x", JNum (str "7")); (str "y", JArr [JStr (str "9")])]) /\
   settled tail_table [1; 2] (str "tail") (AVStruct [AVBase B_int8 (VInt 7); AVList [AVBase B_uint64 (VInt 9)]])).
Proof.
  assert (T : afind (str "tail") tail_table = Some (AStruct [(str "x", str "int8"); (str "y", str "ids$")])) by reflexivity.
  assert (X : afind (str "int8") tail_table = Some (ABuiltin B_int8)) by reflexivity.
  assert (Y : afind (str "ids$") tail_table = Some (AExtension (str "id[]"))) by reflexivity.
  assert (Z : afind (str "id[]") tail_table = Some (AArray (str "uint64"))) by reflexivity.
  assert (W : afind (str "uint64") tail_table = Some (ABuiltin B_uint64)) by reflexivity.
  split; [apply loaded_run; vm_compute; reflexivity|]. split; split.
  - eapply shows_struct; [exact T|]. constructor; [eapply shows_base; [exact X|reflexivity|reflexivity]|].
    constructor. constructor; [eexists; exact Y|constructor].
  - eapply settled_struct; [exact T|]. constructor; [intros [q Q]; cbn [snd] in Q; congruence|discriminate|constructor; reflexivity].
  - eapply shows_struct; [exact T|]. constructor; [eapply shows_base; [exact X|reflexivity|reflexivity]|].
    constructor; [|constructor]. eapply shows_ext; [exact Y|]. eapply shows_list; [exact Z|reflexivity|].
    constructor; [eapply shows_base; [exact W|reflexivity|reflexivity]|constructor].
  - eapply settled_struct; [exact T|]. constructor; [intros [q Q]; cbn [snd] in Q; congruence|discriminate|].
    constructor; [intros _; vm_compute; discriminate| |constructor]. intros _. eapply settled_ext; [exact Y|]. constructor.
Qed.
Example C28_trailing : trailing_extensions tail_table.
Proof. apply trailingb_spec. vm_compute. reflexivity. Qed.
