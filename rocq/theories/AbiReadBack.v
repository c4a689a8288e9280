(** * AbiReadBack: which values survive the way to JSON text and back (specification
    vocabulary [plain_value], [plain], [distinct_names]; and proofs) *)
From Verif Require Import Base Stream StreamFacts TypedBin TypedSpec TypedBinFacts BinLemmas Decimal Hex Prop_Hex Name NameFacts Prop_Name Asset AssetFacts Prop_Asset
  Time TimeSpec TimeFacts Calendar TimeText Prop_Time Base58 Base58Facts Keys KeysFacts Prop_Keys JsonInt JsonIntFacts Prop_JsonInt Utf8 Json JsonSpec JsonStrFacts JsonWrite JsonPrint
  Abi AbiSpec Fpconv AbiScalar AbiScalarFacts AbiValue AbiRead AbiBinSound AbiDoc AbiJsonFacts AbiJsonSound AbiJvalue.

(** ** Specification *)
(** The built-in values whose JSON text is read back as the same value. Left out: times
    between milliseconds or outside 1970-2106, symbols with an invalid code, the
    amount -2^63, strings which are not UTF-8, floats which the C library does not read
    back, keys of more than 2^31 bytes. *)
Definition float_reads_back (E : float_lib) (n : nat) (x : Z) : Prop :=
  exists j t, float_jv n x = Ok j /\ text_of j = Some t /\ t <> [] /\ fl_parse E n t = Some x.
Definition plain_value (E : float_lib) (b : builtin) (v : val) : Prop :=
  match b, v with
  | B_float32, VFloat _ x => float_reads_back E 4 x
  | B_float64, VFloat _ x => float_reads_back E 8 x
  | B_time_point, VInt us => 0 <= us < 2 ^ 32 * 1000000 /\ us mod 1000 = 0
  | B_symbol, VInt z => symbol_is_valid z = true
  | B_symbol_code, VInt z => z < 2 ^ 56 /\ symbol_code_is_valid z = true
  | B_asset, VList [VInt a; VInt s] => a <> - 2 ^ 63 /\ symbol_is_valid s = true
  | B_string, VStr d => utf8 d
  | B_public_key, _ => key_size_ok public_key_ty v
  | B_signature, _ => key_size_ok signature_ty v
  | _, _ => True
  end.
Inductive plain (E : float_lib) : aval -> Prop :=
| plain_base b v : plain_value E b v -> plain E (AVBase b v)
| plain_none : plain E AVNone
| plain_some v : plain E v -> plain E (AVSome v)
| plain_list l : Forall (plain E) l -> plain E (AVList l)
| plain_struct l : Forall (plain E) l -> plain E (AVStruct l)
| plain_var i v : plain E v -> plain E (AVVar i v).
(** No struct has two fields, and no variant two alternatives, of the same name. *)
Definition distinct_names (m : amap) : Prop := forall p fs,
  afind p m = Some (AStruct fs) \/ afind p m = Some (AVariant fs) -> NoDup (map fst fs).
Definition utf8_names (m : amap) : Prop := forall p fs,
  afind p m = Some (AStruct fs) \/ afind p m = Some (AVariant fs) -> Forall (fun f => utf8 (fst f)) fs.

(** ** Built-in values *)
Definition ascii (s : bytes) : Prop := Forall (fun c => 0 <= c < 128) s.
Lemma ascii_app a b : ascii a -> ascii b -> ascii (a ++ b). Proof. intros. apply Forall_app. auto. Qed.
Lemma ascii_simple s : simple s -> ascii s. Proof. intros H. eapply Forall_impl; [|exact H]. cbv beta. intros; lia. Qed.
Lemma base58_nth_ascii n : 0 <= nth n base58_array 0 < 128.
Proof.
  destruct (Nat.lt_ge_cases n (List.length base58_array)) as [L|L].
  - assert (B : Forall (fun c => 0 <= c < 128) base58_array).
    { assert (B : forallb (fun c => (0 <=? c) && (c <? 128)) base58_array = true) by (vm_compute; reflexivity).
      rewrite forallb_forall in B. apply Forall_forall. intros x Hx. specialize (B x Hx). lia. }
    rewrite Forall_forall in B. apply B. now apply nth_In.
  - rewrite nth_overflow by exact L. lia.
Qed.
Lemma push_base58_ascii f : forall c, ascii (push_base58 f c).
Proof. induction f as [|f IH]; intros c; cbn [push_base58]; [constructor|]. destruct (c =? 0); [constructor|]. constructor; [apply base58_nth_ascii|apply IH]. Qed.
Lemma mul256_ascii r : forall c, ascii (mul256_add c r).
Proof. induction r as [|x r IH]; intros c; cbn [mul256_add]; [apply push_base58_ascii|]. cbv zeta. constructor; [apply base58_nth_ascii|apply IH]. Qed.
Lemma base58_out_ascii bin : forall r, ascii r -> ascii (fold_left (fun r b => mul256_add b r) bin r).
Proof. induction bin as [|b bin IH]; intros r H; cbn [fold_left]; [exact H|]. apply IH. apply mul256_ascii. Qed.
Lemma base58_text_ascii bin : ascii (binary_to_base58 bin).
Proof.
  unfold binary_to_base58. apply Forall_rev. apply Forall_app. split; [apply base58_out_ascii; constructor|].
  apply Forall_forall. intros x H. apply repeat_spec in H. subst x. lia.
Qed.
Lemma key_text_ascii t k sf p s : ascii p -> key_to_string t k sf p = Ok s -> ascii s.
Proof.
  intros Hp H. unfold key_to_string in H. apply bind_Ok in H as (w & _ & H). apply bind_Ok in H as (d & _ & H). cbv zeta in H.
  assert (s = p ++ binary_to_base58 (skipn 1 (w ++ firstn 4 d))) by congruence. subst s. apply ascii_app; [exact Hp|apply base58_text_ascii].
Qed.
Lemma ascii_decn k v : ascii (decn k v). Proof. apply ascii_simple, decn_simple. Qed.
Definition asciib (s : bytes) : bool := forallb (fun c => (0 <=? c) && (c <? 128)) s.
Lemma asciib_spec s : asciib s = true -> ascii s.
Proof. unfold asciib. rewrite forallb_forall. intros B. apply Forall_forall. intros x Hx. specialize (B x Hx). lia. Qed.
Lemma time_text_ascii us : ascii (time_text us).
Proof.
  unfold time_text, second_text. destruct (calendar _) as [[y mo] d].
  repeat first [apply ascii_decn | apply ascii_app; [|] | apply asciib_spec; reflexivity].
Qed.
Lemma code_ascii l : code_text l -> ascii l.
Proof.
  intros [_ H]. rewrite forallb_forall in H. apply Forall_forall. intros c Hc. specialize (H c Hc). unfold is_upper in H. lia.
Qed.
Lemma utf8_of_ascii s : ascii s -> utf8 s.
Proof. apply utf8_ascii. Qed.

Lemma name_text_ascii v : 0 <= v < 2 ^ 64 -> ascii (name_to_string v).
Proof.
  intros H. destruct (name_text_valid v H) as (_ & F & _). rewrite forallb_forall in F. apply Forall_forall. intros c Hc. specialize (F c Hc).
  unfold name_text_char, name_char in F. lia.
Qed.
Lemma fixed_back n l : wf key_env 0 (byte_array n) (VList l) = true -> fixed_from_json n (hex (map byte_of l)) = Ok (VList l).
Proof.
  intros H. destruct (fixed_ok _ _ H) as (L & B & Q). unfold fixed_from_json. destruct (C17_roundtrip _ B) as (_ & -> & _). cbn [bind].
  rewrite map_length, L, Nat.eqb_refl. cbn [check bind]. now rewrite <- Q.
Qed.
Lemma fixed_ascii n l : wf key_env 0 (byte_array n) (VList l) = true -> ascii (hex (map byte_of l)).
Proof. intros H. destruct (fixed_ok _ _ H) as (L & B & Q). apply ascii_simple. now apply simple_hex. Qed.
Lemma asset_back a s : - 2 ^ 63 < a < 2 ^ 63 -> 0 <= s < 2 ^ 64 -> symbol_is_valid s = true ->
  exists t, asset_to_string a s = Ok t /\ ascii t /\ asset_from_json_string t = Ok {| amount := a; symbol := s |}.
Proof.
  intros Ha Hs V. destruct (C10_symbol_roundtrip s Hs V) as (P & _ & _ & M). unfold symbol_is_valid in V.
  assert (Hc : 0 <= symbol_code_of s < 2 ^ 56).
  { unfold symbol_code_of. rewrite Z.shiftr_div_pow2 by lia. split; [apply Z.div_pos; lia|]. apply Z.div_lt_upper_bound; lia. }
  destruct (C11_asset_text a (symbol_code_of s) (symbol_precision s) Ha P Hc V) as (t & T1 & T2 & T3 & T4 & T5 & T6). rewrite M in *.
  exists t. split; [exact T1|]. split; [|exact T6]. rewrite T2. unfold asset_text.
  apply ascii_app; [constructor|]. apply ascii_app; [unfold sign_text; destruct (a <? 0); apply asciib_spec; reflexivity|].
  apply ascii_app; [apply ascii_simple, simple_dec, Z.div_pos; lia|]. apply ascii_app.
  - unfold frac_text. destruct (symbol_precision s =? 0); [constructor|]. constructor; [lia|apply ascii_decn].
  - apply ascii_app; [apply asciib_spec; reflexivity|]. apply code_ascii. now apply (C10_symbol_code_roundtrip _ Hc V).
Qed.
Definition back (E : float_lib) (b : builtin) (v : val) (j : jv) : Prop :=
  utf8_doc j /\ ((b = B_bool /\ exists x, v = VBool x /\ j = JBool x) \/ (b <> B_bool /\ exists t, text_of j = Some t /\ scalar_from_text E b t = Ok v)).
Lemma back_str E b v t : b <> B_bool -> utf8 t -> scalar_from_text E b t = Ok v -> back E b v (JStr t).
Proof. intros H U S. split; [now constructor|]. right. split; [exact H|]. exists t. auto. Qed.
Lemma back_num E b v t : b <> B_bool -> scalar_from_text E b t = Ok v -> back E b v (JNum t).
Proof. intros H S. split; [now constructor|]. right. split; [exact H|]. exists t. auto. Qed.
Lemma jstr_Ok r j : jstr r = Ok j -> exists s, r = Ok s /\ j = JStr s.
Proof. unfold jstr. intros H. apply bind_Ok in H as (s & Hs & H). exists s. split; [exact Hs|congruence]. Qed.

Lemma scalar_reads_back E b v j : ov E = Wrap -> scalar_ok b v -> plain_value E b v -> scalar_jv E b v = Ok j -> back E b v j.
Proof.
  intros W H P J. unfold scalar_ok in H.
  assert (I : forall sg n z, int_size n -> int_ok sg n z = true -> vint (from_json_int sg n (int_notation z)) = Ok (VInt z)).
  { intros sg n z Hn Hi. rewrite C21_roundtrip; [reflexivity|exact Hn|now apply int_range]. }
  assert (U8 : forall z, int_ok false 8 z = true -> 0 <= z < 2 ^ 64).
  { intros z Hz. apply int_range in Hz. unfold tmin, tmax, tbits in Hz. change (8 * Z.of_nat 8) with 64 in Hz. lia. }
  assert (U4 : forall z, int_ok false 4 z = true -> 0 <= z < 2 ^ 32).
  { intros z Hz. apply int_range in Hz. unfold tmin, tmax, tbits in Hz. change (8 * Z.of_nat 4) with 32 in Hz. lia. }
  assert (S8 : forall z, int_ok true 8 z = true -> - 2 ^ 63 <= z < 2 ^ 63).
  { intros z Hz. apply int_range in Hz. unfold tmin, tmax, tbits in Hz. change (8 * Z.of_nat 8 - 1) with 63 in Hz. lia. }
  assert (F : forall n x, float_reads_back E n x -> float_jv n x = Ok j -> (forall t, scalar_from_text E b t = fp_from_json E n t) -> b <> B_bool -> v = VFloat n x -> back E b v j).
  { intros n x (j' & t & J1 & J2 & J3 & J4) J' Hb Nb ->. assert (j' = j) by congruence. subst j'.
    assert (R : scalar_from_text E b t = Ok (VFloat n x)).
    { rewrite Hb. unfold fp_from_json. destruct t; [congruence|]. cbn [beq negb check bind]. now rewrite J4. }
    split; [|right; eauto]. clear - J1. unfold float_jv in J1. destruct (_ =? _); [|destruct (is_nan n x)].
    - match type of J1 with Ok ?z = Ok j => assert (j = z) by congruence end. subst j. constructor. apply utf8_of_ascii. destruct (float_sign n x); apply asciib_spec; reflexivity.
    - match type of J1 with Ok ?z = Ok j => assert (j = z) by congruence end. subst j. constructor. apply utf8_of_ascii. apply asciib_spec; reflexivity.
    - destruct (fpconv_dtoa (as_double n x)) as [[|c0 t0]|?|?]; try discriminate. cbn [bind] in J1. match type of J1 with Ok ?z = Ok j => assert (j = z) by congruence end. subst j. constructor. }
  destruct b; cbn [scalar_ty] in H; destruct v; try discriminate H; cbn [scalar_jv plain_value] in J, P;
    try (match type of J with Ok (JNum _) = Ok j => assert (W' : j = JNum (int_notation z)) by congruence; subst j; apply back_num; [discriminate|] end;
         cbn [scalar_from_text]; apply I; [cbv; tauto|exact H]);
    try (match type of J with Ok (JStr (int_notation _)) = Ok j => assert (W' : j = JStr (int_notation z)) by congruence; subst j; apply back_str; [discriminate| |] end;
         [apply utf8_of_ascii, ascii_simple, simple_int|]; cbn [scalar_from_text]; apply I; [cbv; tauto|exact H]);
    try (match type of J with Ok (JStr (hex (map byte_of ?l))) = Ok j => assert (W' : j = JStr (hex (map byte_of l))) by congruence; subst j; apply back_str; [discriminate| |] end;
         [eapply utf8_of_ascii, fixed_ascii; exact H|]; cbn [scalar_from_text]; apply fixed_back; exact H).
  - assert (j = JBool b) by congruence. subst j. split; [constructor|]. left. eauto.
  - cbn [wf wf_with] in H. apply andb_true_iff in H as [H _]. apply andb_true_iff in H as [H _]. apply Nat.eqb_eq in H. subst size. eapply F; eauto. discriminate.
  - cbn [wf wf_with] in H. apply andb_true_iff in H as [H _]. apply andb_true_iff in H as [H _]. apply Nat.eqb_eq in H. subst size. eapply F; eauto. discriminate.
  - destruct P as [P1 P2]. destruct (C15_time_point z P1) as (t & T1 & T2 & T3). rewrite T1 in J. cbn [jstr bind] in J. assert (j = JStr t) by congruence. subst j.
    apply back_str; [discriminate| |].
    + rewrite T2. apply utf8_of_ascii, time_text_ascii.
    + cbn [scalar_from_text]. rewrite W, T3, P2, Z.sub_0_r. reflexivity.
  - destruct (C15_time_point_sec z (U4 z H)) as (t & T1 & T2 & T3). rewrite T1 in J. cbn [jstr bind] in J. assert (j = JStr t) by congruence. subst j.
    apply back_str; [discriminate| |].
    + rewrite T2. apply utf8_of_ascii, time_text_ascii.
    + cbn [scalar_from_text]. rewrite W, T3. reflexivity.
  - destruct (C15_block_timestamp z (U4 z H)) as (t & T1 & T2 & T3). rewrite T1 in J. cbn [jstr bind] in J. assert (j = JStr t) by congruence. subst j.
    apply back_str; [discriminate| |].
    + rewrite T2. apply utf8_of_ascii, time_text_ascii.
    + cbn [scalar_from_text]. rewrite W, T3. reflexivity.
  - assert (j = JStr (name_to_string z)) by congruence. subst j. apply back_str; [discriminate| |].
    + apply utf8_of_ascii, name_text_ascii, U8, H.
    + cbn [scalar_from_text]. f_equal. f_equal. exact (C09_json_name_roundtrip z (U8 z H)).
  - cbn [wf wf_with] in H. apply andb_true_iff in H as [H _]. assert (B : bytes_ok s) by now apply bytes_okb_spec.
    assert (j = JStr (hex s)) by congruence. subst j. apply back_str; [discriminate| |].
    + apply utf8_of_ascii, ascii_simple, simple_hex, B.
    + cbn [scalar_from_text]. destruct (C17_roundtrip s B) as (_ & -> & _). reflexivity.
  - assert (j = JStr s) by congruence. subst j. apply back_str; [discriminate|exact P|reflexivity].
  - destruct (C18_public_key_text _ H P) as (t & body & T1 & _ & T3). apply jstr_Ok in J as (s & J & ->). assert (s = t) by congruence. subst s.
    apply back_str; [discriminate| |exact T3]. apply utf8_of_ascii. unfold public_key_to_string in J.
    destruct (_ =? 0); [eapply key_text_ascii; [|exact J]; apply asciib_spec; reflexivity|].
    destruct (_ =? 1); [eapply key_text_ascii; [|exact J]; apply asciib_spec; reflexivity|].
    destruct (_ =? 2); [eapply key_text_ascii; [|exact J]; apply asciib_spec; reflexivity|discriminate].
  - destruct (C18_private_key_text _ H) as (t & body & T1 & _ & T3). apply jstr_Ok in J as (s & J & ->). assert (s = t) by congruence. subst s.
    apply back_str; [discriminate| |exact T3]. apply utf8_of_ascii. unfold private_key_to_string in J.
    destruct (_ =? 0); [eapply key_text_ascii; [|exact J]; apply asciib_spec; reflexivity|].
    destruct (_ =? 1); [eapply key_text_ascii; [|exact J]; apply asciib_spec; reflexivity|discriminate].
  - destruct (C18_signature_text _ H P) as (t & body & T1 & _ & T3). apply jstr_Ok in J as (s & J & ->). assert (s = t) by congruence. subst s.
    apply back_str; [discriminate| |exact T3]. apply utf8_of_ascii. unfold signature_to_string in J.
    destruct (_ =? 0); [eapply key_text_ascii; [|exact J]; apply asciib_spec; reflexivity|].
    destruct (_ =? 1); [eapply key_text_ascii; [|exact J]; apply asciib_spec; reflexivity|].
    destruct (_ =? 2); [eapply key_text_ascii; [|exact J]; apply asciib_spec; reflexivity|discriminate].
  - assert (j = JStr (symbol_to_string z)) by congruence. subst j.
    destruct (C10_symbol_roundtrip z (U8 z H) P) as (P1 & P2 & P3 & _).
    assert (Hc : 0 <= symbol_code_of z < 2 ^ 56).
    { pose proof (U8 z H). unfold symbol_code_of. rewrite Z.shiftr_div_pow2 by lia. split; [apply Z.div_pos; lia|]. apply Z.div_lt_upper_bound; lia. }
    apply back_str; [discriminate| |].
    + rewrite P2. apply utf8_of_ascii, ascii_app; [apply ascii_simple, simple_dec; lia|]. apply ascii_app; [apply asciib_spec; reflexivity|].
      apply code_ascii. now apply (C10_symbol_code_roundtrip _ Hc).
    + cbn [scalar_from_text]. unfold symbol_from_json_string. rewrite P3. reflexivity.
  - assert (j = JStr (symbol_code_to_string z)) by congruence. subst j. destruct P as [P1 P2].
    assert (Hz : 0 <= z < 2 ^ 56) by (pose proof (U8 z H); lia). destruct (C10_symbol_code_roundtrip z Hz P2) as (Q1 & Q2 & Q3 & _).
    apply back_str; [discriminate| |].
    + now apply utf8_of_ascii, code_ascii.
    + cbn [scalar_from_text]. unfold symbol_code_from_json_string. rewrite Q2. reflexivity.
  - destruct l as [|[z| | | | | |] [|[z'| | | | | |] [|? ?]]]; try (cbn in H; rewrite ?andb_false_r in H; discriminate H).
    cbn [wf wf_with map forallb2] in H. apply andb_true_iff in H as [H1 H2]. apply andb_true_iff in H2 as [H2 _]. destruct P as [P1 P2].
    destruct (asset_back z z') as (t & T1 & T2 & T3); [pose proof (S8 z H1); lia|now apply U8|exact P2|].
    rewrite T1 in J. cbn [jstr bind] in J. assert (j = JStr t) by congruence. subst j. apply back_str; [discriminate|now apply utf8_of_ascii|].
    cbn [scalar_from_text]. rewrite T3. reflexivity.
Qed.

(** ** Values *)
Section Back.
  Variable E : float_lib.
  Variable m : amap.
  Hypothesis SM : sound_map m.
  Hypothesis W : ov E = Wrap.
  Hypothesis DN : distinct_names m.

  Lemma distinct_first (fs : list (bytes * bytes)) : forall i name q, NoDup (map fst fs) -> nthz fs i = Some (name, q) ->
    forall i', 0 <= i' < i -> exists name' q', nthz fs i' = Some (name', q') /\ name' <> name.
  Proof.
    induction fs as [|[n r] fs IH]; intros i name q D H i' Hi; [discriminate|]. cbn [map fst nthz] in *. inversion D as [|? ? D1 D2]; subst.
    destruct (i =? 0) eqn:E0; [lia|]. destruct (i' =? 0) eqn:E1.
    - exists n, r. split; [reflexivity|]. intros ->. apply D1. apply nthz_In in H. apply (in_map fst) in H. exact H.
    - eapply IH; eauto. lia.
  Qed.
  Lemma in_order_nil fs : in_order (map (@fst bytes bytes) fs) [] []. Proof. split; reflexivity. Qed.
  Lemma last_value_absent n (ms : list (bytes * jv)) : ~ In n (map fst ms) -> last_value n ms = None.
  Proof.
    induction ms as [|[k j] ms IH]; intros H; [reflexivity|]. cbn [map fst last_value] in *. rewrite IH by (intros X; apply H; right; exact X).
    destruct (beq k n) eqn:B; [|reflexivity]. apply beq_eq in B. exfalso. apply H. left. exact B.
  Qed.
  Lemma last_value_one n j (ms : list (bytes * jv)) : NoDup (map fst ms) -> In (n, j) ms -> last_value n ms = Some j.
  Proof.
    induction ms as [|[k x] ms IH]; intros D H; [destruct H|]. cbn [map fst last_value] in *. inversion D as [|? ? D1 D2]; subst. destruct H as [H|H].
    - assert (k = n /\ x = j) as [-> ->] by (split; congruence). rewrite last_value_absent by exact D1. now rewrite beq_refl.
    - now rewrite (IH D2 H).
  Qed.
  Lemma NoDup_app {A} (a b : list A) : NoDup (a ++ b) -> NoDup a /\ (forall x, In x a -> ~ In x b).
  Proof.
    induction a as [|x a IH]; intros H; [split; [constructor|tauto]|]. cbn [app] in H. inversion H as [|? ? H1 H2]; subst. destruct (IH H2) as [I1 I2]. split.
    - constructor; auto. intros X. apply H1. apply in_or_app. auto.
    - intros y [<-|Y] X; [apply H1, in_or_app; auto|eapply I2; eauto].
  Qed.
  Lemma in_order_by_name names ms sel : NoDup names -> in_order names ms sel -> by_name names ms sel.
  Proof.
    intros D [H1 H2]. exists (firstn (List.length ms) names), (skipn (List.length ms) names).
    split; [symmetry; apply firstn_skipn|]. rewrite <- (firstn_skipn (List.length ms) names) in D. rewrite <- H1 in *. apply NoDup_app in D as [D1 D2]. subst sel. split.
    - assert (G : forall l, incl l ms -> Forall2 (fun n j => last_value n ms = Some j) (map fst l) (map snd l)).
      { induction l as [|[k x] l IH]; intros I; constructor; [apply last_value_one; auto; apply I; left; reflexivity|apply IH; intros y Hy; apply I; right; exact Hy]. }
      apply G. apply incl_refl.
    - apply Forall_forall. intros n Hn. apply last_value_absent. intros X. eapply D2; eauto.
  Qed.
  (** A document in the order of the definition is read by both converters alike. *)
  Lemma in_order_reads :
    (forall ext p j v, reads E m in_order ext p j v -> reads E m by_name ext p j v) /\
    (forall q js l, reads_items E m in_order q js l -> reads_items E m by_name q js l) /\
    (forall ext fs sel l, reads_fields E m in_order ext fs sel l -> reads_fields E m by_name ext fs sel l).
  Proof.
    apply reads_mutind; intros; try (econstructor; eauto; fail).
    eapply reads_struct; eauto. apply in_order_by_name; [eapply DN; eauto|assumption].
  Qed.

  Lemma scalar_not_null b x : scalar_jv E b x <> Ok JNull.
  Proof.
    intros J. destruct b; destruct x; cbn [scalar_jv] in J; try discriminate J;
      try (apply jstr_Ok in J as (? & _ & J); discriminate J);
      try (unfold float_jv in J; destruct (_ =? _); [discriminate|]; destruct (is_nan _ _); [discriminate|]; destruct (fpconv_dtoa _) as [[|? ?]|?|?]; discriminate).
    destruct l as [|[] [|[] [|? ?]]]; try discriminate J. apply jstr_Ok in J as (? & _ & J); discriminate J.
  Qed.
  Lemma shows_null k ext p v : shows E m k ext p v JNull -> exists q, afind p m = Some (AOptional q) \/ afind p m = Some (AExtension q).
  Proof. intros H. inversion H; subst; eauto. exfalso. eapply scalar_not_null; eauto. Qed.
  Lemma fields_in_order k ext fs l js : shows_fields E m k ext fs l js -> in_order (map fst fs) js (map snd js).
  Proof.
    intros H. split; [|reflexivity]. induction H; cbn [map fst List.length firstn]; auto. f_equal. auto.
  Qed.
  Lemma shows_reads :
    (forall k ext p v j, shows E m k ext p v j -> plain E v -> reads E m in_order ext p j v /\ (level j <= k)%nat /\ arrays_ok j) /\
    (forall k q l js, shows_items E m k q l js -> Forall (plain E) l -> reads_items E m in_order q js l /\ Forall (fun j => (level j <= k)%nat) js /\ Forall arrays_ok js /\ List.length js = List.length l) /\
    (forall k ext fs l js, shows_fields E m k ext fs l js -> Forall (plain E) l ->
       reads_fields E m in_order ext fs (map snd js) l /\ Forall (fun x => (level (snd x) <= k)%nat) js /\ Forall (fun x => arrays_ok (snd x)) js).
  Proof.
    apply shows_mutind.
    - intros k ext p b v j Hp Ho J P. inversion P; subst. destruct (scalar_reads_back E b v j W Ho ltac:(assumption) J) as (_ & [(-> & x & -> & ->)|(Nb & t & T1 & T2)]).
      + split; [now constructor|]. split; [cbn [level]; lia|constructor].
      + split; [eapply reads_text; eauto|]. destruct j; try discriminate T1; (split; [cbn [level]; lia|constructor]).
    - intros k ext p q Hp P. split; [eapply reads_none; eauto|]. split; [cbn [level]; lia|constructor].
    - intros k ext p q v j Hp S IH P. inversion P; subst. destruct (IH ltac:(assumption)) as (R & L & A). split; [|auto]. eapply reads_some; eauto.
      intros ->. apply shows_null in S as [r Hr]. destruct Hr as [Hr|Hr]; pose proof (sm_opt m SM p q _ Hp Hr); discriminate.
    - intros k ext p q v j Hp S IH P. destruct (IH P) as (R & L & A). split; [|auto]. eapply reads_ext; eauto.
    - intros k ext p q l js Hp Hl S IH P. inversion P; subst. destruct (IH ltac:(assumption)) as (R & L & A & Len). split; [eapply reads_list; eauto|].
      split; [now apply level_arr|]. constructor; [lia|assumption].
    - intros k ext p fs l js Hp S IH P. inversion P; subst. destruct (IH ltac:(assumption)) as (R & L & A).
      split; [eapply reads_struct; eauto; eapply fields_in_order; eauto|]. split; [|now constructor].
      destruct js; [cbn [level]; lia|]. now apply level_obj.
    - intros k ext p fs i name q v j Hp Hn Hi S IH P. inversion P; subst. destruct (IH ltac:(assumption)) as (R & L & A).
      split; [eapply reads_var; eauto; [reflexivity|eapply distinct_first; eauto]|]. split.
      + apply level_arr. constructor; [cbn [level]; lia|]. constructor; [exact L|constructor].
      + constructor; [cbn [List.length]; lia|]. constructor; [constructor|]. constructor; [exact A|constructor].
    - intros k q _. split; [constructor|]. split; [constructor|]. split; [constructor|reflexivity].
    - intros k q v l j js _ IH1 _ IH2 P. apply Forall_cons_iff in P as [P1 P2]. destruct (IH1 P1) as (R1 & L1 & A1). destruct (IH2 P2) as (R2 & L2 & A2 & Len).
      split; [now constructor|]. split; [now constructor|]. split; [now constructor|]. cbn [List.length]. congruence.
    - intros k ext _. split; [constructor|]. split; constructor.
    - intros k f fs H _. split; [now constructor|]. split; constructor.
    - intros k ext name q fs v l j js _ IH1 _ IH2 P. apply Forall_cons_iff in P as [P1 P2]. destruct (IH1 P1) as (R1 & L1 & A1). destruct (IH2 P2) as (R2 & L2 & A2).
      split; [cbn [map snd]; now constructor|]. split; now constructor.
  Qed.
  Lemma shows_utf8 : utf8_names m ->
    (forall k ext p v j, shows E m k ext p v j -> plain E v -> utf8_doc j) /\
    (forall k q l js, shows_items E m k q l js -> Forall (plain E) l -> Forall utf8_doc js) /\
    (forall k ext fs l js, shows_fields E m k ext fs l js -> Forall (plain E) l -> Forall (fun f => utf8 (fst f)) fs -> Forall (fun x => utf8 (fst x) /\ utf8_doc (snd x)) js).
  Proof.
    intros N. apply shows_mutind.
    - intros k ext p b v j Hp Ho J P. inversion P; subst. now destruct (scalar_reads_back E b v j W Ho ltac:(assumption) J) as (U & _).
    - intros. constructor.
    - intros k ext p q v j Hp S IH P. inversion P; subst. auto.
    - intros k ext p q v j Hp S IH P. auto.
    - intros k ext p q l js Hp Hl S IH P. inversion P; subst. constructor. auto.
    - intros k ext p fs l js Hp S IH P. inversion P; subst. constructor. apply IH; eauto.
    - intros k ext p fs i name q v j Hp Hn Hi S IH P. inversion P; subst. constructor. constructor; [|constructor; auto].
      constructor. assert (F := N p fs (or_intror Hp)). rewrite Forall_forall in F. apply (F (name, q)). eapply nthz_in; eauto.
    - constructor.
    - intros k q v l j js _ IH1 _ IH2 P. apply Forall_cons_iff in P as [P1 P2]. constructor; auto.
    - constructor.
    - constructor.
    - intros k ext name q fs v l j js _ IH1 _ IH2 P F. apply Forall_cons_iff in P as [P1 P2]. apply Forall_cons_iff in F as [F1 F2]. constructor; auto.
  Qed.
End Back.
