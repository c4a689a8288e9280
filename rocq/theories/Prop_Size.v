(** * C61: the size of what the ABI converters produce *)
From Verif Require Import Base Stream StreamFacts TypedBin TypedSpec KeysFacts Utf8 Json JsonSpec JsonStrFacts JsonFacts JsonSound Keys Abi AbiSpec AbiFacts AbiLoad Prop_Abi AbiScalar AbiScalarFacts Machine AbiValue AbiBin AbiBinFacts AbiBinSound AbiUse Prop_AbiBin
  AbiJson AbiRead AbiJsonFacts AbiJsonSound AbiJsonText AbiJsonCut AbiJsonSafe AbiJvalue AbiReadBack Prop_AbiJson SizeSpec SizeScalar SizeJson SizeText SizeValue SizeBomb.

(** ** JSON to bytes: at most 16 bytes for each character, and one more *)
Theorem C61_json_to_bin_size E a t p m text bin out :
  loaded a t p m -> float_lib_ok E -> bytes_ok text -> short text ->
  json_to_bin E m p text bin (Ok out) ->
  exists x, out = bin ++ x /\ (List.length x <= 16 * List.length text + 1)%nat.
Proof.
  intros L FO Hb Hs H. pose proof (loaded_sound _ _ _ _ L) as SM. destruct (doc_cases text Hb) as [(j & J & T)|(ts & e & T)].
  - destruct (doc_ok _ _ Hb Hs T) as [Tx A]. pose proof (json_to_bin_run E m p j text bin FO SM Tx T) as R.
    pose proof (exec_fun _ _ _ _ H R) as Q. symmetry in Q. apply bind_Ok in Q as (v & Hv & Q). exists (enc v). split; [congruence|].
    pose proof (jread_fits E m SM _ _ _ _ _ Hv) as F. unfold fits in F. pose proof (document_size j text J). lia.
  - destruct (json_to_bin_malformed E m p text bin ts e FO SM Hb Hs T) as (j & _ & _ & r & R & D).
    pose proof (exec_fun _ _ _ _ H R) as Q. destruct D as [[x ->]|(w & -> & _)]; discriminate.
Qed.
Print Assumptions C61_json_to_bin_size.
(** The bound is met: the one character 0 as a uint128? is 17 bytes. *)
Definition uint128_abi : abi_def := AbiDef (str "eosio::abi/1.1") [] [] [] [] [] [] [] [].
Theorem C61_json_to_bin_size_sharp : exists m, loaded uint128_abi (str "uint128?") (str "uint128?") m /\
  json_to_bin no_floats m (str "uint128?") (str "0") [] (Ok (1 :: repeat 0 16)).
Proof.
  destruct (load_check_spec uint128_abi (str "uint128?") (fun m => trailingb m && match afind (str "uint128?") m with Some (AOptional q) => match afind q m with Some (ABuiltin B_uint128) => true | _ => false end | _ => false end)) as (m & L & C); [vm_compute; reflexivity|].
  exists m. split; [exact L|]. apply andb_prop in C as [C1 C]. destruct (afind (str "uint128?") m) as [[]|] eqn:A1; try discriminate C. destruct (afind p m) as [[b| | | | | | | | |]|] eqn:A2; try discriminate C. destruct b; try discriminate C.
  apply (C31_ordered_exactly no_floats _ _ _ _ (str "0") [] _ L (trailingb_spec _ C1)); [| |unfold short; cbn; lia|].
  - intros n s x H. discriminate H.
  - apply bytes_okb_spec. reflexivity.
  - exists (JNum (str "0")), (AVSome (AVBase B_uint128 (VInt 0))). split; [|split; [|split]].
    + exists [], (str "0"), []. split; [constructor|]. split; [|split; [constructor|reflexivity]]. constructor. exists [], (str "0"), [], []. split; [|intros c sg d Q; discriminate Q]. split; [reflexivity|]. split; [now left|]. split; [now left|]. split; now left.
    + eapply reads_some; [exact A1|discriminate|]. eapply reads_text; [exact A2|discriminate|reflexivity|]. reflexivity.
    + cbn. lia.
    + reflexivity.
Qed.
Print Assumptions C61_json_to_bin_size_sharp.

(** The reorderable converter, if no struct has two fields of the same name ... *)
Theorem C61_reorderable_size E a t p m text bin out :
  loaded a t p m -> distinct_names m -> float_lib_ok E -> bytes_ok text -> short text ->
  json_to_bin_reorderable E m p text bin (Ok out) ->
  exists x, out = bin ++ x /\ (List.length x <= 16 * List.length text + 1)%nat.
Proof.
  intros L DN FO Hb Hs H. pose proof (loaded_sound _ _ _ _ L) as SM. apply (C31_reorderable_exactly E a t p m text bin out L FO Hb Hs) in H as (j & v & J & R & _ & ->).
  exists (enc v). split; [reflexivity|]. pose proof (proj1 (proj1 (reads_fits E m SM DN) _ _ _ _ R)) as F. unfold fits in F. pose proof (document_size j text J). lia.
Qed.
Print Assumptions C61_reorderable_size.
Lemma twin_run E a t m n : loaded a t (bomb_name n) m -> float_lib_ok E -> (n <= 126)%nat ->
  (forall i, (i <= n)%nat -> afind (bomb_name i) m = Some (AStruct (twin_fields i))) -> afind (str "uint8") m = Some (ABuiltin B_uint8) ->
  exists out, json_to_bin_reorderable E m (bomb_name n) (twin_text n) [] (Ok out) /\ Z.of_nat (List.length out) = 2 ^ Z.of_nat n.
Proof.
  intros L FO Hn ST U. exists (enc (twin_value n)). split; [|apply (twin_length n)].
  pose proof (twin_text_bytes n) as TB. apply (C31_reorderable_exactly E _ _ _ _ (twin_text n) [] _ L FO).
  - eapply Forall_impl; [|exact TB]. cbv beta. unfold is_byte. intros; lia.
  - unfold short. rewrite twin_text_length. lia.
  - exists (twin_doc n), (twin_value n). split; [|split; [|split; [|reflexivity]]].
    + exists [], (twin_text n), []. split; [constructor|]. split; [apply twin_value_text|]. split; [constructor|]. rewrite app_nil_r. apply cstr_nz. eapply Forall_impl; [|exact TB]. cbv beta. intros; lia.
    + apply twin_reads; [exact ST|exact U].
    + rewrite twin_height. lia.
Qed.
(** ... but a definition may repeat a name, and then one member is written for each of the
    fields: a text of 763 characters becomes 2^126 bytes. *)
Theorem C61_reorderable_size_refuted E : float_lib_ok E ->
  exists m out, loaded (twin_abi 126) (bomb_name 126) (bomb_name 126) m /\ List.length (twin_text 126) = 763%nat /\
    json_to_bin_reorderable E m (bomb_name 126) (twin_text 126) [] (Ok out) /\ Z.of_nat (List.length out) = 2 ^ 126.
Proof.
  intros FO. destruct (load_check_spec _ _ _ twin_loaded) as (m & L & C). apply andb_prop in C as [C1 C2]. pose proof (structs_ok_spec _ _ _ C1) as ST.
  assert (U : afind (str "uint8") m = Some (ABuiltin B_uint8)) by (destruct (afind (str "uint8") m) as [[b| | | | | | | | |]|]; try discriminate C2; destruct b; try discriminate C2; reflexivity).
  destruct (twin_run E _ _ m 126 L FO (le_n _) ST U) as (out & R & Lo). exists m, out. split; [exact L|]. split; [apply (twin_text_length 126)|]. split; [exact R|]. rewrite Lo. reflexivity.
Qed.
Print Assumptions C61_reorderable_size_refuted.

(** ** Bytes to JSON: if every struct has a field which cannot be left out, the text is not
    longer than a constant (for the definition) times the bytes which were read ... *)
Theorem C61_bin_to_json_size E a t p m n bin text rest :
  loaded a t p m -> trailing_extensions m -> solid m -> names_up_to n m -> small bin ->
  bin_to_json E m p bin (Ok (text, rest)) ->
  exists pre, bin = pre ++ rest /\ (1 <= List.length pre)%nat /\ (List.length text <= (110 + (6 * n + 6) * 128) * List.length pre)%nat.
Proof.
  intros L TR SO NU Sm H. apply (C28_decodes_exactly E a t p m bin text rest L TR Sm) in H as (v & pre & j & -> & S & F & _ & ->).
  exists pre. split; [reflexivity|]. destruct Sm as [B _]. apply bytes_ok_app in B as [B _]. exact (proj1 (value_size E m n SO NU _ eq_refl) _ _ _ _ _ S pre B F).
Qed.
Print Assumptions C61_bin_to_json_size.
Lemma bomb_run E a t m n : loaded a t (bomb_name n) m -> trailing_extensions m -> (n <= 127)%nat ->
  (forall i, (i <= n)%nat -> afind (bomb_name i) m = Some (AStruct (bomb_fields i))) ->
  exists text, bin_to_json E m (bomb_name n) [] (Ok (text, [])) /\ Z.of_nat (List.length text) = 13 * 2 ^ Z.of_nat n - 11.
Proof.
  intros L TR Hn ST. exists (print (bomb_doc n)). split; [|apply bomb_length].
  apply (C28_decodes_exactly E _ _ _ _ [] _ [] L TR); [split; [constructor|cbn; lia]|].
  exists (bomb_value n), [], (bomb_doc n). split; [reflexivity|]. split; [|split; [apply bomb_form|split; [apply (bomb_settled m n ST)|reflexivity]]].
  apply bomb_shows; [exact ST|lia].
Qed.
(** ... but with empty structs the text can have any length: from no bytes at all, ... *)
Theorem C61_bin_to_json_size_refuted E :
  exists m text, loaded (bomb_abi 127) (bomb_name 127) (bomb_name 127) m /\
    bin_to_json E m (bomb_name 127) [] (Ok (text, [])) /\ Z.of_nat (List.length text) = 13 * 2 ^ 127 - 11.
Proof.
  destruct (load_check_spec _ _ _ bomb_loaded) as (m & L & C). apply andb_prop in C as [C1 C2]. pose proof (structs_ok_spec _ _ _ C2) as ST.
  destruct (bomb_run E _ _ m 127 L (trailingb_spec _ C1) (le_n _) ST) as (text & R & Lo). exists m, text. split; [exact L|]. split; [exact R|]. rewrite Lo. reflexivity.
Qed.
Print Assumptions C61_bin_to_json_size_refuted.
(** ... and from the at most five bytes of an array size. *)
Theorem C61_bin_to_json_items_refuted E : exists m, loaded empty_abi (str "e[]") (str "e[]") m /\
  forall n, 1 <= n < 2 ^ 31 -> exists text, bin_to_json E m (str "e[]") (encv n) (Ok (text, [])) /\
    (List.length (encv n) <= 5)%nat /\ Z.of_nat (List.length text) = 3 * n + 1.
Proof.
  destruct (load_check_spec _ _ _ empty_items_loaded) as (m & L & C). apply andb_prop in C as [C C3]. apply andb_prop in C as [C1 C2]. apply struct_is_eq in C2.
  destruct (afind (str "e[]") m) as [[]|] eqn:C4; try discriminate C3. apply beq_eq in C3. subst.
  exists m. split; [exact L|]. intros n Hn. exists (print (empties_doc (Z.to_nat n))). split; [|split; [apply encv_len|rewrite empties_text by lia; lia]].
  assert (EB : bytes_ok (encv n)) by (apply encv_ok; lia).
  apply (C28_decodes_exactly E _ _ _ _ (encv n) _ [] L (trailingb_spec _ C1)); [split; [exact EB|pose proof (encv_len n); lia]|].
  exists (empties (Z.to_nat n)), (encv n), (empties_doc (Z.to_nat n)). split; [now rewrite app_nil_r|]. split; [apply empties_shows; [exact C2|exact C4|lia]|]. split; [|split; [constructor|reflexivity]].
  unfold empties. rewrite <- (app_nil_r (encv n)). constructor; [|apply empties_forms]. intros r. rewrite repeat_length, Z2Nat.id by lia. apply vu_form. lia.
Qed.
Print Assumptions C61_bin_to_json_items_refuted.

(** The hypotheses are met: the loaded example of C28 has no struct without a required field. *)
Definition solidb (m : amap) : bool := forallb (fun e => match snd e with AStruct fs => existsb (fun f => match afind (snd f) m with Some (AExtension _) => false | _ => true end) fs | _ => true end) m.
Lemma solidb_spec m : solidb m = true -> solid m.
Proof.
  intros H p fs Hp. unfold solidb in H. rewrite forallb_forall in H. apply afind_In in Hp. specialize (H _ Hp). cbn [snd] in H. apply existsb_exists in H as (f & Hf & X). apply Exists_exists. exists f. split; [exact Hf|].
  intros (q & Q). rewrite Q in X. discriminate X.
Qed.
Definition namesb (n : nat) (m : amap) : bool := forallb (fun e => match snd e with AStruct fs | AVariant fs => forallb (fun f => Nat.leb (List.length (fst f)) n) fs | _ => true end) m.
Lemma namesb_spec n m : namesb n m = true -> names_up_to n m.
Proof.
  intros H p fs Hp. unfold namesb in H. rewrite forallb_forall in H.
  assert (X : forallb (fun f => Nat.leb (List.length (fst f)) n) fs = true) by (destruct Hp as [Hp|Hp]; apply afind_In in Hp; exact (H _ Hp)).
  apply Forall_forall. intros f Hf. rewrite forallb_forall in X. apply Nat.leb_le. exact (X f Hf).
Qed.
Example C61_hypotheses : exists m, loaded ex_abi (str "tail") (str "tail") m /\ trailing_extensions m /\ solid m /\ names_up_to 9 m /\ distinct_names m.
Proof.
  exists tail_table. split; [apply C28_hypotheses|]. split; [apply C28_trailing|]. split; [apply solidb_spec; vm_compute; reflexivity|]. split; [apply namesb_spec; vm_compute; reflexivity|]. apply Prop_AbiJson.namesb_spec. vm_compute. reflexivity.
Qed.
