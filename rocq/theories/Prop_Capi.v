(** * C34 to C37: the C interface *)
From Verif Require Import Base Stream TypedBin TypedSpec TypedBinSound Prop_Bin Hex Prop_Hex Name Json JsonSpec JsonFacts JsonSound JsonPrint Keys KeysFacts Abi AbiSpec AbiFacts AbiLoad Prop_Abi AbiScalar AbiScalarFacts Machine
  AbiValue AbiBin AbiBinFacts AbiBinSound AbiDoc AbiUse Prop_AbiBin AbiJson AbiJsonFacts AbiJsonText Prop_AbiJson TypedJson AbiDef AbiDefSpec AbiDefFacts Prop_AbiDef AbiStable Capi CapiSpec CapiFacts.

(** ** C34 *)
(** A null context: every call gives its failure value and does nothing. *)
Theorem C34_null_context E f x' o : call E None f x' o <-> x' = None /\ o = Returns (failure_value f).
Proof. destruct f; cbn [call handle_exceptions failure_value]; unfold set_abi_bin_call, bin_to_json_call; cbn [handle_exceptions]; reflexivity. Qed.
Print Assumptions C34_null_context.

(** The outcome of a call and the context it leaves are determined by the context and the arguments. *)
Theorem C34_deterministic E x f x1 o1 x2 o2 : call E x f x1 o1 -> call E x f x2 o2 -> x1 = x2 /\ o1 = o2.
Proof. apply call_det. Qed.
Print Assumptions C34_deterministic.

(** After a call which fails abieos_get_error gives a text which is not empty. *)
Lemma what_text e : cstr (what e) <> [].
Proof. destruct e; discriminate. Qed.
Lemma set_abi_bin_text k d c c' e : set_abi_bin_body k d c c' e -> match e with Value (R_bool false) => cstr (last_error c') <> [] | Value (R_text _) => False | Throws m => cstr m <> [] | _ => True end.
Proof.
  unfold set_abi_bin_body. intros H. destruct d as [[|b0 b]|]; try (destruct H as [-> ->]; discriminate).
  destruct (from_bin _ _ _ _) as [[v s]| |]; try (destruct H as [-> ->]; try exact Logic.I; apply what_text).
  destruct v; try (destruct H as [-> ->]; exact Logic.I). destruct (check_abi_version _); [|destruct H as [-> ->]; discriminate].
  destruct (abi_def_from_bin _) as [[df s']| |]; try (destruct H as [-> ->]; try exact Logic.I; apply what_text).
  unfold load in H. destruct (convert df); destruct H as [-> ->]; try exact Logic.I; apply what_text.
Qed.
Lemma bin_to_json_text E k t d c c' e : bin_to_json_body E k t d c c' e -> match e with Value (R_text None) => cstr (last_error c') <> [] | Value (R_bool _) => False | Throws m => cstr m <> [] | _ => True end.
Proof.
  unfold bin_to_json_body. destruct (cfind _ _) as [a|]; [|intros [-> ->]; discriminate].
  destruct (abi_get_type a t) as [[p a']| |]; try (intros [-> ->]; try exact Logic.I; apply what_text).
  intros (q & _ & H). destruct q as [[? rs]| |]; destruct H as [-> ->]; try exact Logic.I; [|apply what_text]. destruct (beq rs []); [exact Logic.I|discriminate].
Qed.
Lemma handle_text c v f c' r : handle_exceptions (Some c) v f (Some c') (Returns r) ->
  (forall c1 e, f c c1 e -> match e with Value r => failed r -> cstr (last_error c1) <> [] | Throws m => cstr m <> [] | _ => True end) ->
  failed r -> cstr (last_error c') <> [].
Proof.
  intros H T F. apply handle_some in H as (c1 & e & H & [(r1 & -> & [= ->] & [= ->])|[(m & -> & [= ->] & [= ->])|(w & -> & _ & ?)]]); [| |discriminate].
  - exact (T _ _ H F).
  - cbn [with_error last_error]. rewrite cstr_cstr. exact (T _ _ H).
Qed.
Lemma failed_bool b : failed (R_bool b) -> b = false.
Proof. intros [[= ->]|[=]]. reflexivity. Qed.
Theorem C34_error_text E c f c' r : call E (Some c) f (Some c') (Returns r) -> failed r ->
  exists text, text <> [] /\ call E (Some c') Get_error (Some c') (Returns (R_text (Some text))).
Proof.
  intros H F. exists (cstr (last_error c')). split; [|split; reflexivity].
  assert (NS : forall k a b, ~ failed (R_text (Some (cstr (k ++ a ++ b))))) by (intros k a b [?|?]; discriminate).
  assert (NL : forall k, cstr (not_loaded k) <> []) by (intros k; discriminate).
  assert (LK : forall k w n, cstr (lacks k w n) <> []) by (intros k w n; discriminate).
  assert (GT : forall fd kd k n c1 e, get_type_body fd kd k n c c1 e -> match e with Value r => failed r -> cstr (last_error c1) <> [] | Throws m => cstr m <> [] | _ => True end).
  { intros fd kd k n c1 e [-> ->]. destruct (cfind _ _) as [a|]; [|apply NL]. destruct (zfind _ _); [intros [?|?]; discriminate|apply LK]. }
  assert (JB : forall conv k t j c1 e, json_body conv k t j c c1 e -> match e with Value r => failed r -> cstr (last_error c1) <> [] | Throws m => cstr m <> [] | _ => True end).
  { intros conv k t j c1 e. unfold json_body. destruct (cfind _ _) as [a|]; [|intros [-> ->] _; apply NL].
    destruct (abi_get_type a t) as [[p a']| |]; try (intros [-> ->]; try exact Logic.I; apply what_text).
    intros (q & _ & K). destruct q; destruct K as [-> ->]; try exact Logic.I; [intros [?|?]; discriminate|apply what_text]. }
  assert (BJ : forall k t d c1 e, bin_to_json_body E k t d c c1 e -> match e with Value r => failed r -> cstr (last_error c1) <> [] | Throws m => cstr m <> [] | _ => True end).
  { intros k t d c1 e B. apply bin_to_json_text in B. destruct e as [[?|[?|]|?|?]|?|?]; try exact B; try exact Logic.I; try contradiction; try (intros [?|?]; discriminate).
    intros _. exact B. }
  assert (SB : forall k d c1 e, set_abi_bin_body k d c c1 e -> match e with Value r => failed r -> cstr (last_error c1) <> [] | Throws m => cstr m <> [] | _ => True end).
  { intros k d c1 e B. apply set_abi_bin_text in B. destruct e as [[[|]|[?|]|?|?]|?|?]; try exact B; try exact Logic.I; try contradiction; try (intros [?|?]; discriminate).
    intros _. exact B. }
  destruct f; cbn [call] in H.
  - destruct H as [_ H]. destruct F as [->| ->]; congruence.
  - destruct H as [_ H]. destruct F as [->| ->]; congruence.
  - destruct H as [_ H]. destruct F as [->| ->]; congruence.
  - eapply handle_text; [exact H| |exact F]. intros c1 e [-> ->] [?|?]; discriminate.
  - destruct H as [_ H]. destruct F as [->| ->]; congruence.
  - eapply handle_text; [exact H| |exact F]. intros c1 e [-> ->] [?|?]; discriminate.
  - eapply handle_text; [exact H| |exact F]. intros c1 e B. unfold set_abi_body in B.
    destruct (abi_def_from_json _ _) as [[df s]| |]; try (destruct B as [-> ->]; try exact Logic.I; apply what_text).
    destruct (check_abi_version _); [|destruct B as [-> ->]; intros _; discriminate].
    unfold load in B. destruct (convert df); destruct B as [-> ->]; try exact Logic.I; [intros X; apply failed_bool in X; discriminate|apply what_text].
  - eapply handle_text; [exact H| |exact F]. intros c1 e. apply SB.
  - eapply handle_text; [exact H| |exact F]. intros c1 e B. destruct (unhex (text_arg hex)) as [b|]; [|destruct B as [-> ->]; intros _; discriminate].
    destruct B as (o & B & ->). destruct o as [r1|w]; [|exact Logic.I]. intros F1. eapply handle_text; [exact B| |exact F1]. intros c2 e. apply SB.
  - eapply handle_text; [exact H| |exact F]. intros c1 e. apply GT.
  - eapply handle_text; [exact H| |exact F]. intros c1 e. apply GT.
  - eapply handle_text; [exact H| |exact F]. intros c1 e. apply JB.
  - eapply handle_text; [exact H| |exact F]. intros c1 e. apply JB.
  - eapply handle_text; [exact H| |exact F]. intros c1 e. apply BJ.
  - eapply handle_text; [exact H| |exact F]. intros c1 e B. destruct (unhex (text_arg hex)) as [b|]; [|destruct B as [-> ->]; intros _; discriminate].
    destruct B as (o & B & ->). destruct o as [r1|w]; [|exact Logic.I]. intros F1. eapply handle_text; [exact B| |exact F1]. intros c2 e. apply BJ.
Qed.
Print Assumptions C34_error_text.

(** A call which does not load an ABI - any failing call in particular - leaves every use of
    every contract as it was. *)
Theorem C34_failure_keeps_abis E h c f r c' k u x o x' o' : reached E h c ->
  call E (Some c) f (Some c') (Returns r) -> failed r \/ (forall k, sets k f = false) ->
  call E (Some c) (use_op k u) x o -> call E (Some c') (use_op k u) x' o' -> o = o'.
Proof.
  intros R H F U U'. pose proof (reached_ok _ _ _ R k) as I.
  assert (R' : reached E (h ++ [(f, r)]) c') by (eapply run_snoc; eauto). pose proof (reached_ok _ _ _ R' k) as I'.
  assert (Q : is_set k (h ++ [(f, r)]) <-> is_set k h).
  { rewrite is_set_snoc. split; [|auto]. intros [X|[-> X]]; [exact X|]. destruct F as [[|]|F]; try discriminate. rewrite F in X. discriminate. }
  destruct (cfind k (contracts c)) as [a|] eqn:Ca; destruct (cfind k (contracts c')) as [a'|] eqn:Ca'.
  - destruct I as (d & c0 & A & Cv & L). destruct I' as (d' & c0' & A' & Cv' & L').
    assert (d' = d) as -> by (eapply abi_of_fun; [exact A'|now apply abi_of_more]). assert (c0' = c0) as -> by congruence.
    exact (proj1 (use_same E k k u c c' d c0 a a' x x' o o' Ca Ca' Cv L L' U U')).
  - destruct I as (d & c0 & A & _). destruct I'. apply Q. eapply abi_of_set; eauto.
  - destruct I' as (d & c0 & A & _). destruct I. apply Q. eapply abi_of_set; eauto.
  - rewrite (use_none _ _ _ _ _ _ Ca U), (use_none _ _ _ _ _ _ Ca' U'). reflexivity.
Qed.
Print Assumptions C34_failure_keeps_abis.

(** Every call comes back: for every history and all arguments (below 2^30 bytes), except for
    two kinds of undefined behaviour inside a conversion (see C28, C32). *)
Definition arg_ok (s : option bytes) : Prop := forall b, s = Some b -> bytes_ok b /\ short b.
Definition args_ok (f : op) : Prop :=
  match f with
  | Get_error | Get_bin_size | Get_bin_data | Get_bin_hex | Name_to_string _ | Get_type_for_action _ _ | Get_type_for_table _ _ => True
  | String_to_name s | Set_abi _ s | Set_abi_bin _ s | Set_abi_hex _ s => arg_ok s
  | Json_to_bin _ t s | Json_to_bin_reorderable _ t s | Bin_to_json _ t s | Hex_to_json _ t s => arg_ok t /\ arg_ok s
  end.
Lemma text_arg_ok s : arg_ok s -> bytes_ok (text_arg s) /\ short (text_arg s).
Proof.
  intros H. destruct s as [b|]; cbn [text_arg]; [|split; [constructor|unfold short; cbn; lia]].
  destruct (H b eq_refl) as [A B]. split; [now apply cstr_ok|]. unfold short in *. pose proof (cstr_len b). lia.
Qed.
Lemma short_bin b : bytes_ok b -> short b -> AbiBinSound.small b.
Proof. intros A B. split; [exact A|]. unfold short in B. lia. Qed.
Lemma string_defined b w : from_bin no_env 0 TString b <> Undef w.
Proof.
  change (from_bin no_env 0 TString b) with (let* (n, s) := varuint32_from_bin b in let* (x, s) := sread s n in Ok (VStr x, s)).
  destruct (varuint32_from_bin b) as [[n s]|e|w'] eqn:V; cbn [bind]; [|discriminate|now destruct (vu32_no_undef _ _ V)].
  unfold sread, check. destruct (_ <=? _); discriminate.
Qed.
Lemma string_value b v s : from_bin no_env 0 TString b = Ok (v, s) -> exists x, v = VStr x.
Proof.
  change (from_bin no_env 0 TString b) with (let* (n, s) := varuint32_from_bin b in let* (x, s) := sread s n in Ok (VStr x, s)).
  intros H. apply bind_Ok in H as ([n s'] & _ & H). apply bind_Ok in H as ([x s''] & _ & H). exists x. congruence.
Qed.
(** A body which ends, and without undefined behaviour other than [P]. *)
Definition ends_with (P : string -> Prop) (c : context) (f : body) : Prop := exists c' e, f c c' e /\ forall w, e = Undef_ w -> P w.
Lemma handle_ends (P : string -> Prop) c v f : ends_with P c f -> exists c' o, handle_exceptions (Some c) v f (Some c') o /\ forall w, o = Undefined w -> P w.
Proof.
  intros (c' & e & H & U). destruct e as [r|m|w]; cbn [handle_exceptions].
  - exists c', (Returns r). split; [exists c', (Value r); auto|discriminate].
  - exists (with_error c' (cstr m)), (Returns v). split; [exists c', (Throws m); auto|discriminate].
  - exists c', (Undefined w). split; [exists c', (Undef_ w); auto|]. intros w' [= <-]. auto.
Qed.
Ltac done_ := eexists _, _; split; [split; reflexivity|discriminate].
Lemma load_ends P k d c : ends_with P c (load k d).
Proof.
  unfold ends_with, load. pose proof (C26_load_total d) as T. destruct (convert d); [done_|done_|contradiction].
Qed.
Lemma set_abi_bin_ends P k d c : arg_ok d -> ends_with P c (set_abi_bin_body k d).
Proof.
  intros H. unfold set_abi_bin_body, ends_with. destruct d as [[|b0 b]|]; [done_| |done_]. destruct (H _ eq_refl) as [A B].
  destruct (from_bin no_env 0 TString (b0 :: b)) as [[v s]|e|w] eqn:F; [|done_|now apply string_defined in F].
  apply string_value in F as [x ->]. destruct (check_abi_version x); [|done_].
  destruct (short_bin _ A B) as [_ L]. pose proof (C43_binary_decode (b0 :: b) A L) as T.
  destruct (abi_def_from_bin (b0 :: b)) as [[d s']|e|w]; [|done_|contradiction]. apply load_ends.
Qed.
Definition hazards : list string := ["bool object with a representation other than 0 or 1"; "signed overflow"; "buffer overflow"]%string.
Lemma json_ends E h c k t j conv (P : string -> Prop) : state_ok E h c -> conv = json_to_bin E \/ conv = json_to_bin_reorderable E -> float_lib_ok E ->
  P "signed overflow"%string -> bytes_ok j -> short j -> ends_with P c (json_body conv k t j).
Proof.
  intros R K FO HP A B. unfold ends_with, json_body. cbn [with_error contracts].
  pose proof (R k) as I. destruct (cfind k (contracts c)) as [a|]; [|done_].
  destruct I as (d & c0 & _ & Cv & L). pose proof (C26_lookup d c0 a t Cv L) as [_ T].
  destruct (abi_get_type a t) as [[p b]|e|w] eqn:G; [|done_|contradiction].
  assert (Ld : loaded d t p (abi_types b)) by (exists c0, a, b; auto).
  assert (X : exists q, conv (abi_types b) p j [] q /\ forall w, q = Undef w -> P w).
  { destruct K as [->| ->].
    - destruct (C32_json_to_bin_ends E d t p (abi_types b) j [] Ld FO A B) as (q & C & U). exists q. split; [exact C|]. intros w Hw. now destruct (U w Hw) as [-> _].
    - destruct (C32_reorderable_ends E d t p (abi_types b) j [] Ld FO A B) as (q & C & U). exists q. split; [exact C|]. intros w Hw. now destruct (U w Hw) as [-> _]. }
  destruct X as (q & C & U). destruct q as [x|x|w].
  - eexists _, _. split; [exists (Ok x); split; [exact C|split; reflexivity]|discriminate].
  - eexists _, _. split; [exists (Err x); split; [exact C|split; reflexivity]|discriminate].
  - eexists _, _. split; [exists (Undef w); split; [exact C|split; reflexivity]|]. intros w' [= <-]. now apply U.
Qed.
Lemma bin_ends E h c k t b : state_ok E h c -> arg_ok b -> ends_with (fun w => In w hazards) c (bin_to_json_body E k t b).
Proof.
  intros R A. unfold ends_with, bin_to_json_body. cbn [with_error contracts].
  pose proof (R k) as I. destruct (cfind k (contracts c)) as [a|]; [|done_].
  destruct I as (d & c0 & _ & Cv & L). pose proof (C26_lookup d c0 a t Cv L) as [_ T].
  destruct (abi_get_type a t) as [[p m]|e|w] eqn:G; [|done_|contradiction].
  assert (Ld : loaded d t p (abi_types m)) by (exists c0, a, m; auto).
  assert (S : AbiBinSound.small match b with None => [] | Some b => b end).
  { destruct b as [b|]; [destruct (A b eq_refl); now apply short_bin|]. split; [constructor|cbn; lia]. }
  destruct (C28_outcome E d t p (abi_types m) _ Ld S) as (q & C & U). destruct q as [[x rs]|x|w].
  - eexists _, _. split; [exists (Ok (x, rs)); split; [exact C|split; reflexivity]|]. destruct (beq rs []); discriminate.
  - eexists _, _. split; [exists (Err x); split; [exact C|split; reflexivity]|discriminate].
  - eexists _, _. split; [exists (Undef w); split; [exact C|split; reflexivity]|]. intros w' [= <-]. exact U.
Qed.
Definition converts (f : op) : bool :=
  match f with Json_to_bin _ _ _ | Json_to_bin_reorderable _ _ _ | Bin_to_json _ _ _ | Hex_to_json _ _ _ => true | _ => false end.
Lemma calls_end E h c f : state_ok E h c -> float_lib_ok E -> args_ok f ->
  exists c' o, call E (Some c) f (Some c') o /\ forall w, o = Undefined w -> converts f = true /\ In w hazards.
Proof.
  intros R FO A.
  assert (N : forall f', converts f' = false -> forall v g, ends_with (fun _ => False) c g ->
    exists c' o, handle_exceptions (Some c) v g (Some c') o /\ forall w, o = Undefined w -> converts f' = true /\ In w hazards).
  { intros f' _ v g G. destruct (handle_ends _ c v g G) as (c' & o & H & U). exists c', o. split; [exact H|]. intros w Hw. destruct (U w Hw). }
  assert (Y : forall v g, ends_with (fun w => In w hazards) c g ->
    exists c' o, handle_exceptions (Some c) v g (Some c') o /\ forall w, o = Undefined w -> true = true /\ In w hazards).
  { intros v g G. destruct (handle_ends _ c v g G) as (c' & o & H & U). exists c', o. split; [exact H|]. intros w Hw. split; [reflexivity|exact (U w Hw)]. }
  assert (SO : In "signed overflow"%string hazards) by (right; now left).
  assert (HX : forall s b, arg_ok s -> unhex (text_arg s) = Some b -> arg_ok (Some b)).
  { intros s b Hs Hx b' [= <-]. destruct (text_arg_ok s Hs) as [_ S]. split; [now apply C17_hex_of_unhex in Hx|].
    pose proof (proj2 (C17_hex_of_unhex _ _ Hx)) as Q. assert (Z : List.length (hex b) = (2 * List.length b)%nat).
    { apply C17_roundtrip. now apply C17_hex_of_unhex in Hx. }
    rewrite Q, map_length in Z. unfold short in *. lia. }
  destruct f; cbn [call args_ok converts] in *.
  - eexists _, _. split; [split; reflexivity|discriminate].
  - eexists _, _. split; [split; reflexivity|discriminate].
  - eexists _, _. split; [split; reflexivity|discriminate].
  - apply (N Get_bin_hex eq_refl). unfold ends_with. done_.
  - eexists _, _. split; [split; reflexivity|discriminate].
  - apply (N (Name_to_string n) eq_refl). unfold ends_with. done_.
  - apply (N (Set_abi contract abi) eq_refl). unfold ends_with, set_abi_body. destruct (text_arg_ok _ A) as [B S]. pose proof (C43_json_total E _ B S) as T.
    destruct (abi_def_from_json _ _) as [[d s]|e|w]; [|done_|contradiction]. destruct (check_abi_version _); [|done_]. apply load_ends.
  - apply (N (Set_abi_bin contract data) eq_refl). now apply set_abi_bin_ends.
  - apply (N (Set_abi_hex contract hex) eq_refl). unfold ends_with. destruct (unhex (text_arg hex)) as [b|] eqn:X; [|done_].
    destruct (handle_ends _ c (R_bool false) _ (set_abi_bin_ends (fun _ => False) contract (Some b) c (HX _ _ A X))) as (c' & o & H & U).
    exists c', (match o with Returns r => Value r | Undefined w => Undef_ w end). split; [exists o; auto|]. intros w. destruct o; [discriminate|]. intros [= ->]. now apply (U w).
  - apply (N (Get_type_for_action contract action) eq_refl). eexists _, _. split; [split; reflexivity|]. intros w. destruct (cfind _ _); [|discriminate]. destruct (zfind _ _); discriminate.
  - apply (N (Get_type_for_table contract table) eq_refl). eexists _, _. split; [split; reflexivity|]. intros w. destruct (cfind _ _); [|discriminate]. destruct (zfind _ _); discriminate.
  - apply Y. destruct A as [_ A]. destruct (text_arg_ok _ A). eapply json_ends; eauto.
  - apply Y. destruct A as [_ A]. destruct (text_arg_ok _ A). eapply json_ends; eauto.
  - apply Y. destruct A as [_ A]. eapply bin_ends; eauto.
  - apply Y. unfold ends_with. destruct (unhex (text_arg hex)) as [b|] eqn:X; [|done_]. destruct A as [_ A].
    destruct (handle_ends _ c (R_text None) _ (bin_ends E h c contract (text_arg type) (Some b) R (HX _ _ A X))) as (c' & o & H & U).
    exists c', (match o with Returns r => Value r | Undefined w => Undef_ w end). split; [exists o; auto|]. intros w. destruct o; [discriminate|]. intros [= ->]. now apply (U w).
Qed.
Theorem C34_every_call_ends E h c f : reached E h c -> float_lib_ok E -> args_ok f ->
  exists c' o, call E (Some c) f (Some c') o /\ forall w, o = Undefined w -> converts f = true /\ In w hazards.
Proof. intros R. apply (calls_end E h), reached_ok, R. Qed.
Print Assumptions C34_every_call_ends.

(** ** C35 *)
(** The calls which use the ABI of a contract depend on nothing but that ABI: on two contexts
    with any histories, two contracts with the same definition give the same outcome, the same
    converted bytes and, if the type is known, the same error text. *)
Theorem C35_depends_on_definition E h1 c1 k1 h2 c2 k2 d u x1 o1 x2 o2 :
  reached E h1 c1 -> abi_of E h1 k1 d -> reached E h2 c2 -> abi_of E h2 k2 d ->
  call E (Some c1) (use_op k1 u) (Some x1) o1 -> call E (Some c2) (use_op k2 u) (Some x2) o2 ->
  o1 = o2 /\
  (o1 = Returns (R_bool true) -> result_bin x1 = result_bin x2) /\
  (known_type d u -> last_error x1 = last_error x2).
Proof.
  intros R1 A1 R2 A2 U1 U2. destruct (reached_abi _ _ _ _ _ R1 A1) as (a1 & c01 & F1 & Cv1 & L1). destruct (reached_abi _ _ _ _ _ R2 A2) as (a2 & c02 & F2 & Cv2 & L2).
  assert (c02 = c01) as -> by congruence. exact (use_same E k1 k2 u c1 c2 d c01 a1 a2 (Some x1) (Some x2) o1 o2 F1 F2 Cv1 L1 L2 U1 U2).
Qed.
Print Assumptions C35_depends_on_definition.

(** Which definition that is depends only on the calls which load one, for this contract: the
    first which returned true. It stays, whatever follows. *)
Theorem C35_abi_stays E h c k d h' c' : reached E h c -> abi_of E h k d -> run E c h' c' -> abi_of E (h ++ h') k d.
Proof. intros _ A _. now apply abi_of_more. Qed.
Print Assumptions C35_abi_stays.
Theorem C35_abi_is_unique E h k d d' : abi_of E h k d -> abi_of E h k d' -> d = d'.
Proof. apply abi_of_fun. Qed.
Print Assumptions C35_abi_is_unique.
(** Every contract has an ABI or was never given one, and then no use of it succeeds. *)
Theorem C35_not_loaded E h c k : reached E h c ->
  (exists d, abi_of E h k d) \/
  ~ is_set k h /\ forall u x o, call E (Some c) (use_op k u) x o -> exists r, o = Returns r /\ failed r.
Proof.
  intros R. destruct (reached_cases E h c k R) as [N|D]; [right|now left]. split; [exact N|]. intros u x o U.
  exists (refused u). split; [eapply use_none; eauto using reached_none|]. unfold failed. destruct u; cbn [refused]; auto.
Qed.
Print Assumptions C35_not_loaded.
(** A definition is loaded exactly when it is well formed for [convert] (see C26, C27) and its
    version begins with "eosio::abi/1.". *)
Definition supported (d : abi_def) : Prop := exists rest, ad_version d = str "eosio::abi/1." ++ rest.
Lemma check_version_spec s : check_abi_version s = true <-> exists rest, s = str "eosio::abi/1." ++ rest.
Proof.
  unfold check_abi_version. rewrite beq_eq. split.
  - intros H. exists (skipn 13 s). rewrite <- H. symmetry. apply firstn_skipn.
  - intros [rest ->]. reflexivity.
Qed.
Lemma load_result k d c c' e : load k d c c' e -> e = Value (R_bool true) <-> exists a, convert d = Ok a.
Proof. unfold load. destruct (convert d) as [a|x|w]; intros [-> ->]; split; try discriminate; try (intros [? ?]; discriminate); eauto. Qed.
Lemma handle_true c f c' o : det f -> handle_exceptions (Some c) (R_bool false) f (Some c') o ->
  (o = Returns (R_bool true) <-> exists c1, f c c1 (Value (R_bool true))).
Proof.
  intros D (c1 & e & B & H). split.
  - intros ->. exists c1. destruct e as [r|m|w]; destruct H as [_ H]; [|discriminate|discriminate]. injection H as ->. exact B.
  - intros (c2 & B2). destruct (D _ _ _ _ _ B B2) as [-> ->]. apply H.
Qed.
Lemma first_string k ts b v r : from_bin no_env 0 (TWrap k (TTuple (TString :: ts))) b = Ok (v, r) ->
  exists x l s', v = VList (VStr x :: l) /\ from_bin no_env 0 TString b = Ok (VStr x, s').
Proof.
  intros H. unfold from_bin in *. cbn [from_bin_with map read_tuple] in H. apply bind_Ok in H as ([l s] & H & Q).
  apply bind_Ok in H as ([x s1] & H & Q1). apply bind_Ok in Q1 as ([l2 s2] & _ & Q2).
  destruct (string_value b x s1 H) as [y ->]. exists y, l2, s1. split; [congruence|exact H].
Qed.
Lemma first_member x l d : abi_of_val (VList (VStr x :: l)) = Some d -> ad_version d = x.
Proof.
  do 8 (destruct l as [|? l]; [discriminate|]). destruct l; [|discriminate]. cbn [abi_of_val].
  repeat match goal with |- match ?o with _ => _ end = _ -> _ => destruct o; [|discriminate] end. intros [= <-]. reflexivity.
Qed.
Lemma bin_version b d s : abi_def_from_bin b = Ok (d, s) -> exists s', from_bin no_env 0 TString b = Ok (VStr (ad_version d), s').
Proof.
  unfold abi_def_from_bin. intros H. apply bind_Ok in H as ([v r] & H & Q).
  apply first_string in H as (x & l & s' & -> & H). destruct (abi_of_val _) as [d'|] eqn:A; [|discriminate].
  assert (d' = d) by congruence. subst d'. apply first_member in A. rewrite A. eauto.
Qed.
Lemma set_abi_bin_true k b d s c : abi_def_from_bin b = Ok (d, s) ->
  (exists c1, set_abi_bin_body k (Some b) c c1 (Value (R_bool true))) <-> supported d /\ exists a, convert d = Ok a.
Proof.
  intros F. destruct (bin_version _ _ _ F) as (s' & V). unfold set_abi_bin_body, supported. rewrite <- check_version_spec.
  destruct b as [|b0 b]; [discriminate V|]. rewrite V, F. split.
  - intros (c1 & B). destruct (check_abi_version _); [|destruct B; discriminate]. split; [reflexivity|]. now apply (load_result _ _ _ _ _ B).
  - intros [-> [a Cv]]. eexists. unfold load. rewrite Cv. split; reflexivity.
Qed.
(** abieos_set_abi_hex is abieos_set_abi_bin of the bytes, abieos_hex_to_json is abieos_bin_to_json of the bytes. *)
Theorem C35_set_abi_hex E c k h x o : call E (Some c) (Set_abi_hex k h) x o <->
  match unhex (text_arg h) with
  | Some b => call E (Some c) (Set_abi_bin k (Some b)) x o
  | None => x = Some (with_error c (str "expected hex string")) /\ o = Returns (R_bool false)
  end.
Proof.
  cbn [call]. unfold handle_exceptions at 1. destruct (unhex (text_arg h)) as [b|].
  - split.
    + intros (c' & e & (q & B & ->) & H). destruct q; destruct H as [-> ->]; exact B.
    + intros H. destruct x as [c'|].
      * exists c', (match o with Returns r => Value r | Undefined w => Undef_ w end). split; [exists o; auto|]. destruct o; auto.
      * destruct H as (c' & e & _ & H). destruct e; destruct H; discriminate.
  - split; [intros (c' & e & [-> ->] & H); exact H|]. intros H. eexists _, _. split; [split; reflexivity|exact H].
Qed.
Print Assumptions C35_set_abi_hex.
Theorem C35_loads E c k f c' o : sets k f = true -> call E (Some c) f (Some c') o ->
  o = Returns (R_bool true) <-> exists d, offers E f k d /\ supported d /\ exists a, convert d = Ok a.
Proof.
  intros S H.
  assert (B : forall b c' o, call E (Some c) (Set_abi_bin k (Some b)) (Some c') o -> o = Returns (R_bool true) <->
    exists d s, abi_def_from_bin b = Ok (d, s) /\ supported d /\ exists a, convert d = Ok a).
  { intros b c1 o1 B. cbn [call] in B. rewrite (handle_true _ _ _ _ (set_abi_bin_det _ _) B). split.
    - intros (c2 & X). destruct (abi_def_from_bin b) as [[d s]|e|w] eqn:F.
      + exists d, s. split; [reflexivity|]. apply (set_abi_bin_true k b d s c F). eauto.
      + exfalso. unfold set_abi_bin_body in X. destruct b as [|b0 b]; [destruct X; discriminate|].
        destruct (from_bin _ _ _ _) as [[v s]| |]; try (destruct X; discriminate). destruct v; try (destruct X; discriminate).
        destruct (check_abi_version _); [|destruct X; discriminate]. rewrite F in X. destruct X; discriminate.
      + exfalso. unfold set_abi_bin_body in X. destruct b as [|b0 b]; [destruct X; discriminate|].
        destruct (from_bin _ _ _ _) as [[v s]| |]; try (destruct X; discriminate). destruct v; try (destruct X; discriminate).
        destruct (check_abi_version _); [|destruct X; discriminate]. rewrite F in X. destruct X; discriminate.
    - intros (d & s & F & X). now apply (set_abi_bin_true k b d s c F). }
  destruct f; cbn [sets] in S; try discriminate; apply Z.eqb_eq in S; subst contract.
  - cbn [call] in H. rewrite (handle_true _ _ _ _ (set_abi_det _ _ _) H). unfold set_abi_body. split.
    + intros (c1 & X). destruct (abi_def_from_json _ _) as [[d s]|e|w] eqn:F; try (destruct X; discriminate).
      destruct (check_abi_version (ad_version d)) eqn:V; [|destruct X; discriminate]. exists d. split; [econstructor; eauto|].
      split; [now apply check_version_spec|]. now apply (load_result _ _ _ _ _ X).
    + intros (d & O & V & [a Cv]). inversion O; subst. match goal with F : abi_def_from_json _ _ = _ |- _ => rewrite F end.
      apply check_version_spec in V. rewrite V. eexists. unfold load. rewrite Cv. split; reflexivity.
  - destruct data as [b|].
    + rewrite (B _ _ _ H). split.
      * intros (d & s & F & X). exists d. split; [econstructor; eauto|exact X].
      * intros (d & O & X). inversion O; subst. eauto.
    + cbn [call] in H. rewrite (handle_true _ _ _ _ (set_abi_bin_det _ _) H). split; [intros (c1 & X); destruct X; discriminate|].
      intros (d & O & _). inversion O.
  - apply C35_set_abi_hex in H. destruct (unhex (text_arg hex)) as [b|] eqn:X.
    + rewrite (B _ _ _ H). split.
      * intros (d & s & F & Y). exists d. split; [econstructor; eauto|exact Y].
      * intros (d & O & Y). inversion O; subst. assert (b0 = b) by congruence. subst b0. eauto.
    + destruct H as [_ ->]. split; [discriminate|]. intros (d & O & _). inversion O; subst. congruence.
Qed.
Print Assumptions C35_loads.
(** The same definition offered as JSON, as binary and as hex is the same to the three calls. *)
Theorem C35_formats_agree E d text k : abi_def_ok d -> ad_extensions d = [] -> bytes_ok text -> short text -> json_text (abi_document d) text ->
  offers E (Set_abi k (Some text)) k d /\ offers E (Set_abi_bin k (Some (b_abi d))) k d /\ offers E (Set_abi_hex k (Some (hex (b_abi d)))) k d.
Proof.
  intros D X Hb Hs J. destruct (C43_json_and_binary_agree E d text D X Hb Hs J) as (A & bin & Bn & C).
  assert (bin = b_abi d) as -> by (pose proof (proj1 (C43_binary_roundtrip d D)); congruence).
  assert (N : cstr text = text).
  { destruct J as (w1 & b & w2 & Hw1 & Hv & Hw2 & ->). apply cstr_nz. rewrite !nz_app. split; [now apply ws_nz|]. split; [|now apply ws_nz]. eapply (proj1 (text_nz _)); eauto. }
  split; [|split].
  - eapply offers_json. cbn [text_arg]. rewrite N. exact A.
  - eapply offers_bin. exact C.
  - assert (Hbin : bytes_ok (b_abi d)).
    { assert (W : wf no_env 0 (erase abi_def_jty) (val_of_abi d) = true) by (apply (cd_wf _ _ _ _ _ codec_abi); eauto).
      destruct (TypedBinFacts.rt_bin _ _ _ _ W) as (b & Eb & Ob & _). rewrite (cd_enc _ _ _ _ _ codec_abi d D) in Eb. assert (b = b_abi d) as <- by congruence. exact Ob. }
    eapply offers_hex; [|exact C]. cbn [text_arg]. rewrite cstr_nz.
    + now apply C17_roundtrip.
    + destruct (C17_roundtrip _ Hbin) as (_ & _ & _ & U). rewrite forallb_forall in U. apply Forall_forall. intros z Hz. specialize (U z Hz). intros ->. discriminate.
Qed.
Print Assumptions C35_formats_agree.

(** An ABI offered for a contract which has one is not used, although the call returns true if
    it is well formed (C35_loads). *)
Theorem C35_second_abi_is_ignored E h c k d f r c' u x o x' o' : reached E h c -> abi_of E h k d -> sets k f = true ->
  call E (Some c) f (Some c') (Returns r) ->
  call E (Some c) (use_op k u) (Some x) o -> call E (Some c') (use_op k u) (Some x') o' -> o = o'.
Proof.
  intros R A S H U U'. assert (R' : reached E (h ++ [(f, r)]) c') by (eapply run_snoc; eauto).
  exact (proj1 (C35_depends_on_definition E h c k (h ++ [(f, r)]) c' k d u x o x' o' R A R' (abi_of_more _ _ _ _ _ A) U U')).
Qed.
Print Assumptions C35_second_abi_is_ignored.
(** Loading an ABI for one contract does not touch another. *)
Theorem C35_contracts_are_independent E h c k k' f r c' u x o x' o' : reached E h c -> k' <> k -> sets k' f = true ->
  call E (Some c) f (Some c') (Returns r) ->
  call E (Some c) (use_op k u) (Some x) o -> call E (Some c') (use_op k u) (Some x') o' -> o = o'.
Proof.
  intros R N S H U U'. assert (R' : reached E (h ++ [(f, r)]) c') by (eapply run_snoc; eauto).
  destruct (reached_cases E h c k R) as [Ns|[d A]].
  - assert (Ns' : ~ is_set k (h ++ [(f, r)])).
    { rewrite is_set_snoc. intros [X|[_ X]]; [contradiction|]. destruct f; cbn [sets] in *; try discriminate; apply Z.eqb_eq in X; apply Z.eqb_eq in S; congruence. }
    rewrite (use_none _ _ _ _ _ _ (reached_none _ _ _ _ R Ns) U), (use_none _ _ _ _ _ _ (reached_none _ _ _ _ R' Ns') U'). reflexivity.
  - exact (proj1 (C35_depends_on_definition E h c k (h ++ [(f, r)]) c' k d u x o x' o' R A R' (abi_of_more _ _ _ _ _ A) U U')).
Qed.
Print Assumptions C35_contracts_are_independent.

(** What the conversions do: they look the type up in the definition (C26) and convert as
    described for C28 to C31. *)
Theorem C35_json_to_bin E h c k d type json c' o (ordered : bool) : reached E h c -> abi_of E h k d ->
  call E (Some c) (if ordered then Json_to_bin k type json else Json_to_bin_reorderable k type json) (Some c') o ->
  (forall p, ~ denotes d (text_arg type) p) /\ o = Returns (R_bool false) /\ result_bin c' = result_bin c \/
  exists p m q, loaded d (text_arg type) p m /\
    (if ordered then json_to_bin E m p (text_arg json) [] q else json_to_bin_reorderable E m p (text_arg json) [] q) /\
    match q with
    | Ok b => o = Returns (R_bool true) /\ result_bin c' = b
    | Err e => o = Returns (R_bool false) /\ result_bin c' = [] /\ last_error c' = what e
    | Undef w => o = Undefined w
    end.
Proof.
  intros R A H. destruct (reached_abi _ _ _ _ _ R A) as (a & c0 & F & Cv & L).
  assert (CW : forall e, cstr (what e) = what e) by (intros e; destruct e; reflexivity).
  assert (B : exists conv, (conv = if ordered then json_to_bin E else json_to_bin_reorderable E) /\
    handle_exceptions (Some c) (R_bool false) (json_body conv k (text_arg type) (text_arg json)) (Some c') o) by (destruct ordered; eauto).
  clear H. destruct B as (conv & Hc & c1 & e & B & H). unfold json_body in B. cbn [with_error contracts] in B. rewrite F in B.
  pose proof (C26_lookup d c0 a (text_arg type) Cv L) as [_ T]. destruct (abi_get_type a (text_arg type)) as [[p b]|x|w] eqn:G; [| |contradiction].
  - right. destruct B as (q & C & Q). exists p, (abi_types b), q. split; [exists c0, a, b; auto|]. split; [destruct ordered; subst conv; exact C|].
    destruct q as [y|y|w]; destruct Q as [-> ->]; destruct H as [[= ->] ->]; cbn [with_error with_bin last_error result_bin]; rewrite ?CW; auto.
  - left. destruct B as [-> ->]. destruct H as [[= ->] ->]. split; [apply T|]. split; reflexivity.
Qed.
Print Assumptions C35_json_to_bin.
Definition data_arg (s : option bytes) : bytes := match s with None => [] | Some b => b end.
Theorem C35_bin_to_json E h c k d type data c' o : reached E h c -> abi_of E h k d ->
  call E (Some c) (Bin_to_json k type data) (Some c') o ->
  (forall p, ~ denotes d (text_arg type) p) /\ o = Returns (R_text None) \/
  exists p m q, loaded d (text_arg type) p m /\ bin_to_json E m p (data_arg data) q /\
    match q with
    | Ok (text, []) => o = Returns (R_text (Some (cstr text)))
    | Ok (text, _ :: _) => o = Returns (R_text None) /\ last_error c' = str "Extra data"
    | Err e => o = Returns (R_text None) /\ last_error c' = what e
    | Undef w => o = Undefined w
    end.
Proof.
  intros R A H. destruct (reached_abi _ _ _ _ _ R A) as (a & c0 & F & Cv & L).
  assert (CW : forall e, cstr (what e) = what e) by (intros e; destruct e; reflexivity).
  destruct H as (c1 & e & B & H). unfold bin_to_json_body in B. cbn [with_error contracts] in B. rewrite F in B.
  pose proof (C26_lookup d c0 a (text_arg type) Cv L) as [_ T]. destruct (abi_get_type a (text_arg type)) as [[p b]|x|w] eqn:G; [| |contradiction].
  - right. destruct B as (q & C & Q). exists p, (abi_types b), q. split; [exists c0, a, b; auto|]. split; [exact C|].
    destruct q as [[y rs]|y|w]; destruct Q as [-> ->].
    + destruct rs; cbn [beq] in H; destruct H as [[= ->] ->]; [reflexivity|]. split; reflexivity.
    + destruct H as [[= ->] ->]; cbn [with_error last_error]; rewrite ?CW; auto.
    + apply H.
  - left. destruct B as [-> ->]. destruct H as [_ ->]. split; [apply T|reflexivity].
Qed.
Print Assumptions C35_bin_to_json.
Theorem C35_type_names E h c k d n c' o : reached E h c -> abi_of E h k d ->
  (call E (Some c) (Get_type_for_action k n) (Some c') o ->
     o = Returns (R_text (option_map cstr (last_declared ac_name ac_type n (ad_actions d))))) /\
  (call E (Some c) (Get_type_for_table k n) (Some c') o ->
     o = Returns (R_text (option_map cstr (last_declared tb_name tb_type n (ad_tables d))))).
Proof.
  intros R A. destruct (reached_abi _ _ _ _ _ R A) as (a & c0 & F & Cv & L). destruct (C26_actions_and_tables d c0 n Cv) as [Q1 Q2].
  destruct (after_lookups_keeps _ _ L) as [P1 P2]. split; intros (c1 & e & [-> ->] & H); rewrite F in H.
  - rewrite P1, Q1 in H. destruct (last_declared ac_name _ _ _); cbn [option_map]; apply H.
  - rewrite P2, Q2 in H. destruct (last_declared tb_name _ _ _); cbn [option_map]; apply H.
Qed.
Print Assumptions C35_type_names.

(** ** C36 *)
Lemma bin_to_json_tables E d t p m p' m' bin r : loaded d t p m -> loaded d t p' m' -> bin_to_json E m p bin r -> p' = p /\ bin_to_json E m' p bin r.
Proof.
  intros L L' H. pose proof (loaded_functional _ _ _ _ L) as Fu. destruct L as (c & c1 & c2 & Cv & A & G & ->). destruct L' as (c' & c1' & c2' & Cv' & A' & G' & ->).
  assert (c' = c) as -> by congruence. pose proof (lookups_agree d c c1 c1' t Cv A A') as K. rewrite G, G' in K. destruct K as (-> & Bo & Cl & _).
  split; [reflexivity|]. eapply bin_to_json_same; eauto.
Qed.
(** abieos_bin_to_json returns a text exactly if the whole data is one encoded value of the
    type, and then it is the JSON form of that value. *)
Theorem C36_whole_input E h c k d type data c' o : reached E h c -> abi_of E h k d ->
  (forall p m, loaded d (text_arg type) p m -> trailing_extensions m) -> abi_names_ok d -> AbiBinSound.small (data_arg data) ->
  call E (Some c) (Bin_to_json k type data) (Some c') o ->
  forall text, o = Returns (R_text (Some text)) <->
    exists p m v j, loaded d (text_arg type) p m /\ shows E m 128 true p v j /\ form v (data_arg data) /\ settled m [] p v /\ text = print j.
Proof.
  intros R A TR NO Sm H text.
  assert (NZ : forall p m tx, loaded d (text_arg type) p m -> bin_to_json E m p (data_arg data) (Ok (tx, [])) -> cstr tx = tx).
  { intros p m tx L B. destruct (C33_output_is_json E d _ p m _ tx [] L (TR _ _ L) NO Sm B) as (v & pre & j & cl & _ & _ & _ & _ & w1 & b & w2 & Hw1 & Hv & Hw2 & ->).
    apply cstr_nz. rewrite !nz_app. split; [now apply ws_nz|]. split; [|now apply ws_nz]. eapply (proj1 (text_nz _)); eauto. }
  destruct (C35_bin_to_json E h c k d type data c' o R A H) as [[N ->]|(p & m & q & L & B & Q)].
  - split; [discriminate|]. intros (p & m & v & j & L & _). destruct (N p). now apply loaded_faithful in L.
  - split.
    + intros ->. destruct q as [[tx [|r0 rs]]|e|w]; [|destruct Q; discriminate|destruct Q; discriminate|discriminate].
      assert (text = tx) as -> by (rewrite (NZ _ _ _ L B) in Q; congruence).
      apply (C28_decodes_exactly E d _ p m _ _ [] L (TR _ _ L) Sm) in B as (v & pre & j & E1 & Sh & Fo & Se & ->). rewrite app_nil_r in E1. subst pre.
      exists p, m, v, j. auto.
    + intros (p' & m' & v & j & L' & Sh & Fo & Se & ->).
      assert (B' : bin_to_json E m' p' (data_arg data) (Ok (print j, []))).
      { apply (C28_decodes_exactly E d _ p' m' _ _ [] L' (TR _ _ L') Sm). exists v, (data_arg data), j. rewrite app_nil_r. auto. }
      destruct (bin_to_json_tables E d _ p' m' p m _ _ L' L B') as [<- B'']. rewrite (C28_deterministic _ _ _ _ _ _ B B'') in Q. rewrite Q.
      f_equal. f_equal. f_equal. eapply NZ; eauto.
Qed.
Print Assumptions C36_whole_input.
(** Bytes left over after a value are reported. *)
Theorem C36_extra_data E h c k d type data c' o p m text rest : reached E h c -> abi_of E h k d ->
  loaded d (text_arg type) p m -> bin_to_json E m p (data_arg data) (Ok (text, rest)) -> rest <> [] ->
  call E (Some c) (Bin_to_json k type data) (Some c') o -> o = Returns (R_text None) /\ last_error c' = str "Extra data".
Proof.
  intros R A L B N H. destruct (C35_bin_to_json E h c k d type data c' o R A H) as [[X _]|(p' & m' & q & L' & B' & Q)].
  - destruct (X p). now apply loaded_faithful in L.
  - destruct (bin_to_json_tables E d _ p m p' m' _ _ L L' B) as [-> B'']. rewrite (C28_deterministic _ _ _ _ _ _ B' B'') in Q. destruct rest; [congruence|exact Q].
Qed.
Print Assumptions C36_extra_data.
Theorem C36_hex_to_json E c k t h x o : call E (Some c) (Hex_to_json k t h) x o <->
  match unhex (text_arg h) with
  | Some b => call E (Some c) (Bin_to_json k t (Some b)) x o
  | None => x = Some (with_error c (str "expected hex string")) /\ o = Returns (R_text None)
  end.
Proof.
  cbn [call]. unfold handle_exceptions at 1. destruct (unhex (text_arg h)) as [b|].
  - split.
    + intros (c' & e & (q & B & ->) & H). destruct q; destruct H as [-> ->]; exact B.
    + intros H. destruct x as [c'|].
      * exists c', (match o with Returns r => Value r | Undefined w => Undef_ w end). split; [exists o; auto|]. destruct o; auto.
      * destruct H as (c' & e & _ & H). destruct e; destruct H; discriminate.
  - split; [intros (c' & e & [-> ->] & H); exact H|]. intros H. eexists _, _. split; [split; reflexivity|exact H].
Qed.
Print Assumptions C36_hex_to_json.

(** ** C37 *)
(** The binary result is changed by the two JSON conversions only. *)
Lemma bin_kept E c f c' o : makes_bin f = false -> call E (Some c) f (Some c') o -> result_bin c' = result_bin c.
Proof.
  assert (Hd : forall v (g : body), (forall c1 e, g c c1 e -> result_bin c1 = result_bin c) -> handle_exceptions (Some c) v g (Some c') o -> result_bin c' = result_bin c).
  { intros v g Hg H. apply handle_some in H as (c1 & e & H & [(r1 & -> & [= ->] & _)|[(m & -> & [= ->] & _)|(w & -> & [= ->] & _)]]); exact (Hg _ _ H). }
  assert (Ld : forall k d c0 c1 e, load k d c0 c1 e -> result_bin c1 = result_bin c0) by (intros k d c0 c1 e; unfold load; destruct (convert d); intros [-> _]; reflexivity).
  assert (SB : forall k d c1 e, set_abi_bin_body k d c c1 e -> result_bin c1 = result_bin c).
  { intros k d c1 e. unfold set_abi_bin_body. destruct d as [[|b0 b]|]; try (intros [-> _]; reflexivity). destruct (from_bin _ _ _ _) as [[v s]| |]; try (intros [-> _]; reflexivity).
    destruct v; try (intros [-> _]; reflexivity). destruct (check_abi_version _); try (intros [-> _]; reflexivity).
    destruct (abi_def_from_bin _) as [[d s']| |]; try (intros [-> _]; reflexivity). intros H. now apply Ld in H. }
  assert (BJ : forall k t d c1 e, bin_to_json_body E k t d c c1 e -> result_bin c1 = result_bin c).
  { intros k t d c1 e. unfold bin_to_json_body. destruct (cfind _ _) as [a|]; [|intros [-> _]; reflexivity]. destruct (abi_get_type _ _) as [[p b]| |]; try (intros [-> _]; reflexivity).
    intros (q & _ & H). destruct q as [[? ?]| |]; destruct H as [-> _]; reflexivity. }
  intros M. destruct f; try discriminate M; try (intros [H _]; congruence).
  - cbn [call]. apply Hd. intros c1 e [-> _]. reflexivity.
  - cbn [call]. apply Hd. intros c1 e [-> _]. reflexivity.
  - cbn [call]. apply Hd. intros c1 e. unfold set_abi_body. destruct (abi_def_from_json _ _) as [[d s]| |]; try (intros [-> _]; reflexivity).
    destruct (check_abi_version _); [|intros [-> _]; reflexivity]. intros H. now apply Ld in H.
  - cbn [call]. apply Hd. intros c1 e. apply SB.
  - rewrite C35_set_abi_hex. destruct (unhex (text_arg hex)); [|intros [[= ->] _]; reflexivity]. cbn [call]. apply Hd. intros c1 e. apply SB.
  - cbn [call]. apply Hd. intros c1 e [-> _]. reflexivity.
  - cbn [call]. apply Hd. intros c1 e [-> _]. reflexivity.
  - cbn [call]. apply Hd. intros c1 e. apply BJ.
  - rewrite C36_hex_to_json. destruct (unhex (text_arg hex)); [|intros [[= ->] _]; reflexivity]. cbn [call]. apply Hd. intros c1 e. apply BJ.
Qed.
(** After a successful JSON conversion, and any further calls which are not JSON conversions,
    the data, the size and the hex text are those of the converted bytes. *)
Theorem C37_results E h c k d type json (ordered : bool) c1 h' c2 : reached E h c -> abi_of E h k d ->
  call E (Some c) (if ordered then Json_to_bin k type json else Json_to_bin_reorderable k type json) (Some c1) (Returns (R_bool true)) ->
  run E c1 h' c2 -> Forall (fun x => makes_bin (fst x) = false) h' ->
  exists p m b, loaded d (text_arg type) p m /\
    (if ordered then json_to_bin E m p (text_arg json) [] (Ok b) else json_to_bin_reorderable E m p (text_arg json) [] (Ok b)) /\
    (forall x o, call E (Some c2) Get_bin_data x o -> o = Returns (R_data (Some b))) /\
    (forall x o, call E (Some c2) Get_bin_size x o -> Z.of_nat (List.length b) < 2 ^ 31 -> o = Returns (R_int (Z.of_nat (List.length b)))) /\
    (forall x o, call E (Some c2) Get_bin_hex x o -> bytes_ok b -> o = Returns (R_text (Some (hex b))) /\ unhex (hex b) = Some b).
Proof.
  intros R A H Rn Q. destruct (C35_json_to_bin E h c k d type json c1 _ ordered R A H) as [(_ & X & _)|(p & m & q & L & C & X)]; [discriminate|].
  destruct q as [b|e|w]; [|destruct X; discriminate|discriminate]. destruct X as [_ X]. exists p, m, b. split; [exact L|]. split; [exact C|].
  assert (K : result_bin c2 = b).
  { rewrite <- X. clear - Rn Q. induction Rn as [|c f c1 r h c2 H Rn IH]; [reflexivity|]. apply Forall_cons_iff in Q as [Q1 Q2]. rewrite (IH Q2). eapply bin_kept; eauto. }
  split; [|split].
  - intros x o [_ ->]. now rewrite K.
  - intros x o [_ ->] Lb. rewrite K. unfold wrap_s. rewrite Z.mod_small by lia. unfold to_signed. destruct (Z.ltb_spec (Z.of_nat (List.length b)) (2 ^ (32 - 1))); [reflexivity|]. change (2 ^ (32 - 1)) with (2 ^ 31) in *. lia.
  - intros x o (c3 & e & [-> ->] & G) Hb. rewrite K in G. destruct (C17_roundtrip b Hb) as (U & _ & _ & V). split; [|exact U]. destruct G as [_ ->]. rewrite cstr_nz; [reflexivity|].
    rewrite forallb_forall in V. apply Forall_forall. intros z Hz. specialize (V z Hz). intros ->. discriminate.
Qed.
Print Assumptions C37_results.
(** A JSON conversion which fails after the type was found leaves no bytes. *)
Theorem C37_failure_leaves_nothing E h c k d type json (ordered : bool) c1 p : reached E h c -> abi_of E h k d -> denotes d (text_arg type) p ->
  call E (Some c) (if ordered then Json_to_bin k type json else Json_to_bin_reorderable k type json) (Some c1) (Returns (R_bool false)) ->
  result_bin c1 = [].
Proof.
  intros R A D H. destruct (C35_json_to_bin E h c k d type json c1 _ ordered R A H) as [(N & _)|(p' & m & q & _ & _ & X)]; [now destruct (N p)|].
  destruct q as [b|e|w]; [destruct X; discriminate|apply X|discriminate].
Qed.
Print Assumptions C37_failure_leaves_nothing.

(** ** Examples and findings *)
Definition ex_bytes : bytes := Eval vm_compute in b_abi ex_abi.
Definition ex_loaded_abi : abi := Eval vm_compute in match convert ex_abi with Ok a => a | _ => Abi [] [] [] end.
Definition ex_context : context := Ctx (str "abi parse error") [] [] [(5, ex_loaded_abi)].
Lemma ex_set E : call E (Some create) (Set_abi_bin 5 (Some ex_bytes)) (Some ex_context) (Returns (R_bool true)).
Proof.
  assert (V : exists s, from_bin no_env 0 TString ex_bytes = Ok (VStr (ad_version ex_abi), s)) by (eexists; vm_compute; reflexivity). destruct V as [s V].
  assert (D : abi_def_from_bin ex_bytes = Ok (ex_abi, [])) by (vm_compute; reflexivity).
  assert (C : convert ex_abi = Ok ex_loaded_abi) by (vm_compute; reflexivity).
  assert (B : exists b0 b1, ex_bytes = b0 :: b1) by (eexists _, _; reflexivity). destruct B as (b0 & b1 & B).
  cbn [call]. unfold set_abi_bin_call. cbn [handle_exceptions]. exists ex_context, (Value (R_bool true)). split; [|split; reflexivity].
  unfold set_abi_bin_body. rewrite B in *. rewrite V. change (check_abi_version (ad_version ex_abi)) with true. cbn iota. rewrite D. unfold load. rewrite C. split; reflexivity.
Qed.
Definition ex_history : list (op * ret) := [(Set_abi_bin 5 (Some ex_bytes), R_bool true)].
Lemma ex_abi_of E : abi_of E ex_history 5 ex_abi.
Proof.
  exists [], (Set_abi_bin 5 (Some ex_bytes)), []. split; [reflexivity|]. split; [intros (f & X & _); exact X|]. split; [reflexivity|].
  refine (offers_bin E 5 ex_bytes ex_abi [] _). vm_compute. reflexivity.
Qed.
(** A context with an ABI, a conversion to binary, and one back. *)
Definition ex_text : bytes := str "{ ""x"" : ""7"", ""y"":[9]}".
Definition ex_bin : bytes := [7; 1; 9; 0; 0; 0; 0; 0; 0; 0].
Lemma ex_lookup : abi_get_type ex_loaded_abi (str "tail") = Ok (str "tail", ex_loaded_abi).
Proof. vm_compute. reflexivity. Qed.
Lemma ex_table : abi_types ex_loaded_abi = tail_table.
Proof. reflexivity. Qed.
Lemma ex_convert E : float_lib_ok E -> json_to_bin E tail_table (str "tail") ex_text [] (Ok ex_bin).
Proof.
  intros FO. assert (T : tokenize ex_text = (tokens (JObj [(str "x", JStr (str "7")); (str "y", JArr [JNum (str "9")])]), None)) by (vm_compute; reflexivity).
  pose proof (json_to_bin_run E tail_table (str "tail") _ _ [] FO (loaded_sound _ _ _ _ (proj1 C28_hypotheses)) (doc_texts _ _ T eq_refl) T) as R.
  assert (V : jread E tail_table 128 true (str "tail") (JObj [(str "x", JStr (str "7")); (str "y", JArr [JNum (str "9")])]) = Ok tail_value) by (vm_compute; reflexivity).
  rewrite V in R. exact R.
Qed.
Definition ex_after (t : bytes) (b : bytes) : context := Ctx t [] b [(5, ex_loaded_abi)].
Lemma ex_json E c : float_lib_ok E -> contracts c = [(5, ex_loaded_abi)] ->
  call E (Some c) (Json_to_bin 5 (Some (str "tail")) (Some ex_text)) (Some (Ctx (str "json parse error") (result_str c) ex_bin (contracts c))) (Returns (R_bool true)).
Proof.
  intros FO Hc. cbn [call handle_exceptions]. eexists _, (Value (R_bool true)). split; [|split; [reflexivity|reflexivity]].
  unfold json_body. cbn [with_error contracts]. rewrite Hc. cbn [cfind]. change (5 =? 5) with true. cbn iota. change (text_arg (Some (str "tail"))) with (str "tail"). rewrite ex_lookup.
  exists (Ok ex_bin). change (text_arg (Some ex_text)) with ex_text. rewrite ex_table. split; [now apply ex_convert|].
  split; [|reflexivity]. unfold with_bin, with_contracts, with_error. cbn [last_error result_str result_bin contracts update]. reflexivity.
Qed.
Example C37_hypotheses : let c1 := ex_after (str "json parse error") ex_bin in
  reached no_floats ex_history ex_context /\ abi_of no_floats ex_history 5 ex_abi /\
  call no_floats (Some ex_context) (Json_to_bin 5 (Some (str "tail")) (Some ex_text)) (Some c1) (Returns (R_bool true)) /\
  call no_floats (Some c1) Get_bin_hex (Some (Ctx (str "json parse error") (str "07010900000000000000") ex_bin [(5, ex_loaded_abi)])) (Returns (R_text (Some (str "07010900000000000000")))).
Proof.
  split; [|split; [apply ex_abi_of|split]].
  - eapply run_cons; [apply ex_set|constructor].
  - exact (ex_json no_floats ex_context no_floats_ok eq_refl).
  - cbn [call handle_exceptions]. eexists _, _. split; [split; reflexivity|]. split; vm_compute; reflexivity.
Qed.
(** abieos_get_error after a call which succeeded: the text set at the beginning of the call
    stays, so that it does not tell whether the last call failed. *)
Theorem C34_error_not_cleared_refuted : exists h c c' f,
  reached no_floats h c /\ call no_floats (Some c) f (Some c') (Returns (R_bool true)) /\ ~ failed (R_bool true) /\
  call no_floats (Some c) Get_error (Some c) (Returns (R_text (Some (str "abi parse error")))) /\ h = ex_history /\
  call no_floats (Some c') Get_error (Some c') (Returns (R_text (Some (str "json parse error")))).
Proof.
  exists ex_history, ex_context, (ex_after (str "json parse error") ex_bin), (Json_to_bin 5 (Some (str "tail")) (Some ex_text)).
  destruct C37_hypotheses as (R & _ & C & _). split; [exact R|]. split; [exact C|]. split; [intros [?|?]; discriminate|]. split; [split; reflexivity|]. split; [reflexivity|split; reflexivity].
Qed.
Print Assumptions C34_error_not_cleared_refuted.
(** Of the six calls which use an ABI, bin_to_json (and hex_to_json) alone do not say that the
    contract is not loaded: the text is made but not stored. *)
Theorem C34_unloaded_text_refuted E :
  (exists c, call E (Some create) (Bin_to_json 5 (Some (str "name")) (Some [])) (Some c) (Returns (R_text None)) /\ last_error c = str "binary decode error") /\
  (exists c, call E (Some create) (Json_to_bin 5 (Some (str "name")) (Some (str "1"))) (Some c) (Returns (R_bool false)) /\
     last_error c = str "contract ""............5"" is not loaded") /\
  (exists c, call E (Some create) (Get_type_for_action 5 5) (Some c) (Returns (R_text None)) /\
     last_error c = str "contract ""............5"" is not loaded").
Proof.
  split; [|split].
  - eexists. split; [eexists _, _; split; [split; reflexivity|split; reflexivity]|reflexivity].
  - eexists. split; [eexists _, _; split; [split; reflexivity|split; reflexivity]|vm_compute; reflexivity].
  - eexists. split; [eexists _, _; split; [split; reflexivity|split; reflexivity]|vm_compute; reflexivity].
Qed.
Print Assumptions C34_unloaded_text_refuted.
(** The error text for a type which cannot be resolved depends on the types looked up before:
    the same contract, the same call, with and without an earlier (successful) use of "uint8?". *)
Definition deep_type : bytes := str "uint8" ++ List.repeat 63 32.
Definition said (a : abi) : option bytes := match abi_get_type a deep_type with Err e => Some (what e) | _ => None end.
Theorem C35_error_text_history_refuted :
  match convert ex_abi with
  | Ok a =>
      exists a', abi_get_type a (str "uint8?") = Ok (str "uint8?", a') /\
      said a = Some (str "Recursion limit reached") /\ said a' = Some (str "Invalid nesting")
  | _ => False
  end.
Proof.
  change (convert ex_abi) with (convert ex_abi). assert (C : convert ex_abi = Ok ex_loaded_abi) by (vm_compute; reflexivity). rewrite C.
  eexists. split; [vm_compute; reflexivity|]. split; vm_compute; reflexivity.
Qed.
Print Assumptions C35_error_text_history_refuted.
