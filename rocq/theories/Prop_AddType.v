(** * C49: deriving ABI types from C++ types

    Vocabulary: [jty] (TypedJson.v): descriptions of C++ types; [table m], [addable], [coherent],
    [describes], [abi_name], [well_nested] (AddTypeSpec.v): the type tables of a program, the types for
    which abi::add_type compiles, no two descriptions under one name, the table has the description of
    the type and of everything it is made of, its ABI name, no forbidden nesting. *)
From Verif Require Import Base Stream StreamFacts TypedBin TypedSpec TypedBinFacts Asset Utf8 Json JsonSpec JsonFacts JsonPrint Prop_Json Keys KeysFacts Abi AbiSpec AbiFacts AbiLoad Prop_Abi
  AbiScalar AbiScalarFacts AbiValue Machine AbiBin AbiBinFacts AbiBinSound AbiBinSafe AbiDoc AbiUse Prop_AbiBin AbiJson AbiRead AbiJsonFacts AbiJsonSound AbiJvalue AbiReadBack Prop_AbiJson
  TypedJson TypedJsonSpec TypedJsonFacts TypedJsonBack ShipFacts AddType AddTypeSpec AddTypeFacts AddTypeRun AddTypeValue.

(** add_type adds descriptions of the type and its parts, changes no other entry, and fails only on
    nested vectors, optionals and extensions. *)
Theorem C49_adds m t :
  table m -> addable t = true -> coherent m t ->
  match add_type t m with
  | Ok (p, m') =>
      well_nested t = true /\ p = abi_name t /\ describes m' t /\ table m' /\
      (forall k d, afind k m = Some d -> afind k m' = Some d) /\
      (forall k d, afind k m' = Some d -> afind k m = Some d \/ exists u, In u (parts t) /\ k = abi_name u /\ d = shape u)
  | Err e => e = E_invalid_nesting /\ well_nested t = false
  | Undef _ => False
  end.
Proof.
  intros T A C. destruct (table_sound m T) as [S Sc]. pose proof (add_type_good t m S Sc A C) as G.
  destruct (add_type t m) as [[p m']|e|w] eqn:H; cbn [good] in G; [|exact G|exact G].
  destruct G as (-> & I & Mo & Gr & Pr). pose proof (i_sound _ _ _ I) as S'.
  assert (Ag : forall u d, In u (parts t) -> afind (abi_name u) m' = Some d -> d = shape u).
  { intros u d Hu Hd. exact (i_agree _ _ _ I u d Hu (fun X => X) Hd). }
  pose proof (describes_down m' t S' Ag Pr) as D.
  split; [|split; [reflexivity|split; [exact D|split; [exact (table_add m t m' _ T A (coherent_compatible m t C) (run_of_type _ _ _ _ H))|split; [exact Mo|]]]]].
  - unfold well_nested. apply forallb_forall. intros u Hu. pose proof (D u Hu) as E. rewrite sound_entries in S'. destruct (S' _ _ E) as (_ & _ & N).
    destruct u; try reflexivity; cbn [nests shape] in *;
      pose proof (N _ (D _ (parts_closed t _ _ Hu (or_introl eq_refl)))) as X; rewrite ?wraps_shape, ?ext_shape in X; rewrite ?X; try reflexivity.
    apply negb_false_iff in X. exact X.
  - intros k d Hd. destruct (afind k m) as [d'|] eqn:K; [left; rewrite (Mo _ _ K) in Hd; congruence|].
    right. destruct (Gr k K) as (u & Hu & En); [congruence|]. exists u. split; [exact Hu|]. split; [now symmetry|]. subst k. exact (Ag u d Hu Hd).
Qed.
Print Assumptions C49_adds.

(** Adding a type which is in the table already changes nothing. *)
Lemma add_known : forall t m, addable t = true -> well_nested t = true -> describes m t -> add_type t m = Ok (abi_name t, m).
Proof.
  assert (Wn : forall t c, In c (children t) -> well_nested t = true -> well_nested c = true).
  { intros t c Hc H. destruct (well_nested c) eqn:X; [reflexivity|]. pose proof (well_nested_child t c Hc X). congruence. }
  assert (Nt : forall t, well_nested t = true -> nests t = true).
  { intros t H. unfold well_nested in H. rewrite forallb_forall in H. apply H, parts_self. }
  assert (Em : forall t m, describes m t -> fst (try_emplace (abi_name t) (shape t) m) = m).
  { intros t m D. unfold try_emplace. rewrite (describes_self m t D). reflexivity. }
  assert (De : forall t m, describes m t -> deref (abi_name t) m = Ok (shape t)).
  { intros t m D. unfold deref. rewrite (describes_self m t D). reflexivity. }
  induction t as [b|t IH|t IH|tys IH|nm fs IH|a b IHa IHb|t IH| |t IH|names|k] using jty_ind'; intros m A W D; try discriminate A.
  - cbn [addable] in A. cbn [add_type abi_name type_name]. rewrite A. unfold find_type. pose proof (describes_self m _ D) as X. cbn [abi_name type_name] in X. rewrite X. reflexivity.
  - cbn [addable] in A. apply andb_true_iff in A as [_ A]. cbn [add_type]. pose proof (describes_child m (JVec t) t (or_introl eq_refl) D) as Dc.
    rewrite (IH m A (Wn (JVec t) t (or_introl eq_refl) W) Dc). cbn [bind]. rewrite (De t m Dc). cbn [bind]. rewrite wraps_shape. pose proof (Nt _ W) as X. cbn [nests] in X. rewrite X. cbn [check bind].
    f_equal. f_equal. exact (Em (JVec t) m D).
  - cbn [addable] in A. apply andb_true_iff in A as [_ A]. cbn [add_type]. pose proof (describes_child m (JOpt t) t (or_introl eq_refl) D) as Dc.
    rewrite (IH m A (Wn (JOpt t) t (or_introl eq_refl) W) Dc). cbn [bind]. rewrite (De t m Dc). cbn [bind]. rewrite wraps_shape. pose proof (Nt _ W) as X. cbn [nests] in X. rewrite X. cbn [check bind].
    f_equal. f_equal. exact (Em (JOpt t) m D).
  - cbn [addable] in A. cbn [add_type]. set (go := fix go (ts : list jty) (m : amap) {struct ts} : res (list (bytes * bytes) * amap) := _).
    assert (G : forall ts, (forall t, In t ts -> In t tys) -> go ts m = Ok (map (fun t => (abi_name t, abi_name t)) ts, m)).
    { induction ts as [|t ts IHt]; intros Hs; [reflexivity|]. cbn [go]. fold go. pose proof (Hs t (or_introl eq_refl)) as Ht. rewrite Forall_forall in IH. rewrite forallb_forall in A. specialize (A t Ht). apply andb_true_iff in A as [_ A'].
      rewrite (IH t Ht m A' (Wn (JVariant tys) t Ht W) (describes_child m (JVariant tys) t Ht D)). cbn [bind]. rewrite IHt; [reflexivity|]. intros x Hx. apply Hs. now right. }
    rewrite (G tys (fun t H => H)). cbn [bind]. f_equal. f_equal. exact (Em (JVariant tys) m D).
  - cbn [add_type]. unfold try_emplace. pose proof (describes_self m _ D) as X. cbn [abi_name type_name] in X. rewrite X. reflexivity.
  - cbn [addable] in A. cbn [add_type]. pose proof (describes_child m (JMaybe t) t (or_introl eq_refl) D) as Dc.
    rewrite (IH m A (Wn (JMaybe t) t (or_introl eq_refl) W) Dc). cbn [bind]. rewrite (De t m Dc). cbn [bind]. rewrite ext_shape. pose proof (Nt _ W) as X. cbn [nests] in X. rewrite X. cbn [negb check bind].
    f_equal. f_equal. exact (Em (JMaybe t) m D).
  - cbn [add_type abi_name type_name]. unfold find_type. pose proof (describes_self m _ D) as X. cbn [abi_name type_name] in X. rewrite X. reflexivity.
  - cbn [add_type abi_name type_name]. unfold find_type. pose proof (describes_self m _ D) as X. cbn [abi_name type_name] in X. rewrite X. reflexivity.
Qed.
Theorem C49_again m t p m' :
  table m -> addable t = true -> coherent m t -> add_type t m = Ok (p, m') -> add_type t m' = Ok (p, m').
Proof.
  intros T A C H. pose proof (C49_adds m t T A C) as G. rewrite H in G. destruct G as (W & -> & D & _). now apply add_known.
Qed.
Print Assumptions C49_again.

(** Converting by the derived type agrees with the native conversions: on the bytes which the native writer
    makes of a value, bin_to_json gives the text which the native to_json makes of it. *)
Theorem C49_bin_to_json E m t env fuel v text rest :
  table m -> addable t = true -> writable_type t = true -> describes m t ->
  wf (fun n => erase (env n)) fuel (erase t) v = true -> convert_to_json E env fuel t v = Ok text ->
  Z.of_nat (List.length text) < 2 ^ 31 -> (forall j, tdoc E env fuel t v = Ok j -> (nesting j <= 128)%nat) ->
  exists bin, convert_to_bin (fun n => erase (env n)) fuel (erase t) v [] = Ok bin /\
              bin_to_json E m (abi_name t) (bin ++ rest) (Ok (text, rest)).
Proof.
  intros T A W D H J L N. destruct (table_sound m T) as [SM _]. rewrite (convert_to_json_spec E env fuel t v (wf_jwf env fuel t v H)) in J.
  apply bind_Ok in J as (j & J & J'). assert (text = print j) by congruence. subst text. clear J'. specialize (N j J).
  pose proof H as H'. rewrite wf_unfold in H'. exists (AbiValue.enc (av t v)). split.
  - rewrite convert_to_bin_eq, to_bin_vector, enc_unfold. now rewrite (av_enc _ _ t A W v H').
  - rewrite tdoc_unfold in J. pose proof (av_shows E _ (fun _ _ => Ok []) _ m t A W D v j true 128%nat H' J N L) as Sh. apply bin_to_json_eq. symmetry.
    apply (proj1 (bv_complete E m SM) 128%nat true (abi_name t) _ j Sh); [eapply (proj1 (shows_form_enc E m)); eauto|].
    intros _. exact (av_settled _ m rest t A W D v H').
Qed.
Print Assumptions C49_bin_to_json.

(** And back: json_to_bin and json_to_bin_reorderable make the bytes of the native writer from the text of the native to_json. *)
Theorem C49_json_to_bin E m t env fuel v text :
  table m -> addable t = true -> writable_type t = true -> describes m t ->
  distinct_names m -> utf8_names m -> float_lib_ok E -> ov E = Wrap ->
  wf (fun n => erase (env n)) fuel (erase t) v = true -> survives E t v -> convert_to_json E env fuel t v = Ok text ->
  short text -> (forall j, tdoc E env fuel t v = Ok j -> (nesting j <= 128)%nat) ->
  exists bin, convert_to_bin (fun n => erase (env n)) fuel (erase t) v [] = Ok bin /\
              json_to_bin E m (abi_name t) text [] (Ok bin) /\
              ((forall j, tdoc E env fuel t v = Ok j -> (height j <= 128)%nat) -> json_to_bin_reorderable E m (abi_name t) text [] (Ok bin)).
Proof.
  intros T A W D DN UN FO Ov H Su J Hs N. destruct (table_sound m T) as [SM _]. rewrite (convert_to_json_spec E env fuel t v (wf_jwf env fuel t v H)) in J.
  apply bind_Ok in J as (j & J & J'). assert (text = print j) by congruence. subst text. clear J'. specialize (N j J).
  pose proof H as H'. rewrite wf_unfold in H'. exists (AbiValue.enc (av t v)).
  assert (L : brief j) by (unfold brief; unfold short in Hs; lia).
  split; [rewrite convert_to_bin_eq, to_bin_vector, enc_unfold; now rewrite (av_enc _ _ t A W v H')|].
  assert (Sh : shows E m 128 true (abi_name t) (av t v) j) by (rewrite tdoc_unfold in J; exact (av_shows E _ (fun _ _ => Ok []) _ m t A W D v j true 128%nat H' J N L)).
  pose proof (av_plain E _ t A W v H' Su) as P.
  assert (NO : names_ok m) by (intros q fs Hq; eapply Forall_impl; [|exact (UN q fs Hq)]; cbv beta; intros f; apply utf8_bytes_ok).
  pose proof (proj1 (shows_writable E m NO) _ _ _ _ _ Sh) as Wr. pose proof (proj1 (shows_utf8 E m Ov UN) _ _ _ _ _ Sh P) as U.
  pose proof (print_text_utf8 j Wr U) as Jt. apply C44_reads_every_document in Jt. pose proof (print_bytes j Wr) as Hb.
  destruct (doc_ok _ _ Hb Hs Jt) as [Tx Ar]. destruct (proj1 (shows_reads E m SM Ov DN) _ _ _ _ _ Sh P) as (Rd & Lv & A'). split.
  - pose proof (json_to_bin_run E m (abi_name t) j _ [] FO SM Tx Jt) as R. rewrite (proj1 (jread_complete E m SM) _ _ _ _ Rd 128%nat Ar Lv) in R. exact R.
  - intros Hh. specialize (Hh j J). pose proof (reorderable_run E m (abi_name t) j _ [] FO SM Tx Jt) as R. destruct (Nat.leb_spec (height j) max_stack_size) as [_|X]; [|unfold max_stack_size in X; lia].
    apply (in_order_reads E m DN) in Rd.
    rewrite (proj1 (rread_complete E m SM) _ _ _ _ Rd (4 * height j + 3)%nat 3%nat Ar (sound_chain m (abi_name t) SM) (le_n _) (le_n _)) in R. exact R.
Qed.
Print Assumptions C49_json_to_bin.

(** The hypotheses on the names in the table are kept by adding types whose own names are good. *)
Lemma distinct_part : forall t, names_distinct t -> addable t = true -> writable_type t = true -> forall u, In u (parts t) ->
  match shape u with AStruct fs | AVariant fs => NoDup (map fst fs) /\ Forall (fun f => utf8 (fst f)) fs | _ => True end.
Proof.
  induction t as [b|t IH|t IH|tys IH|nm fs IH|a b IHa IHb|t IH| |t IH|names|k] using jty_ind'; intros N A W u Hu; try discriminate A;
    try (apply writes_self in W; discriminate W); apply parts_down in Hu as [->|(c & Hc & Hu)]; cbn [children] in *; try exact Logic.I; try (destruct Hc; fail).
  - destruct Hc as [<-|[]]. cbn [addable] in A. apply andb_true_iff in A as [_ A]. exact (IH N A (writable_child (JVec t) t (or_introl eq_refl) W) u Hu).
  - destruct Hc as [<-|[]]. cbn [addable] in A. apply andb_true_iff in A as [_ A]. exact (IH N A (writable_child (JOpt t) t (or_introl eq_refl) W) u Hu).
  - cbn [shape names_distinct] in *. destruct N as (N & U & _). rewrite map_map. cbn [fst].
    assert (E : map abi_name tys = map type_name tys) by (apply map_ext_in; intros t Ht; apply writes_name, writes_self, (writable_child (JVariant tys) t Ht W)).
    split; [change (NoDup (map abi_name tys)); rewrite E; exact N|]. rewrite <- E in U. rewrite Forall_map in U |- *. exact U.
  - cbn [names_distinct] in N. destruct N as (_ & _ & N). rewrite fold_and_In in N. rewrite Forall_forall in IH, N. cbn [addable] in A. rewrite forallb_forall in A. specialize (A c Hc). apply andb_true_iff in A as [_ A].
    exact (IH c Hc (N c Hc) A (writable_child (JVariant tys) c Hc W) u Hu).
  - cbn [shape names_distinct] in *. destruct N as (N & U & _). rewrite map_map. cbn [fst]. split; [exact N|]. rewrite Forall_map. exact U.
  - cbn [names_distinct] in N. destruct N as (_ & _ & N). pose proof (writable_child (JStruct nm fs) c Hc W) as Wc. apply in_map_iff in Hc as (f & <- & Hf).
    rewrite fold_and_In in N. rewrite Forall_forall in IH, N. cbn [addable] in A. rewrite forallb_forall in A. exact (IH f Hf (N f Hf) (A f Hf) Wc u Hu).
Qed.
Theorem C49_names_stay m t p m' :
  table m -> addable t = true -> writable_type t = true -> coherent m t -> names_distinct t -> distinct_names m -> utf8_names m ->
  add_type t m = Ok (p, m') -> distinct_names m' /\ utf8_names m'.
Proof.
  intros T A W C N DN UN H. pose proof (C49_adds m t T A C) as G. rewrite H in G. destruct G as (_ & _ & _ & _ & _ & O).
  assert (K : forall q fs, afind q m' = Some (AStruct fs) \/ afind q m' = Some (AVariant fs) -> NoDup (map fst fs) /\ Forall (fun f => utf8 (fst f)) fs).
  { intros q fs [Hq|Hq]; (destruct (O _ _ Hq) as [Hm|(u & Hu & -> & Ed)]; [split; [eapply DN; eauto|eapply UN; eauto]|]);
      pose proof (distinct_part t N A W u Hu) as X; rewrite <- Ed in X; exact X. }
  split; intros q fs Hq; now apply K in Hq.
Qed.
Print Assumptions C49_names_stay.

(** ** Examples *)
(** template_test.cpp: struct struct_type { vector<int> v; optional<int> o; variant<int, double> va; } *)
Definition ex_struct : jty :=
  JStruct (str "struct_type") [(str "v", JVec (JScalar B_int32)); (str "o", JOpt (JScalar B_int32));
                               (str "va", JVariant [JScalar B_int32; JScalar B_float64])].
Definition ex_table : amap := Eval vm_compute in match convert (empty_def (str "eosio::abi/1.0")) with Ok c => abi_types c | _ => [] end.
Definition ex_added : amap := Eval vm_compute in match add_type ex_struct ex_table with Ok (_, m) => m | _ => [] end.
Example ex_table_table : table ex_table.
Proof.
  assert (H : convert (empty_def (str "eosio::abi/1.0")) = Ok (Abi [] [] ex_table)) by (vm_compute; reflexivity).
  exact (table_convert _ _ H).
Qed.
Definition adata_dec (a b : adata) : {a = b} + {a <> b}.
Proof. repeat decide equality. Defined.
Lemma coherent_dec m t :
  forallb (fun u => forallb (fun u' => negb (beq (abi_name u) (abi_name u')) || if adata_dec (shape u) (shape u') then true else false) (parts t)
                    && match afind (abi_name u) m with Some d => if adata_dec d (shape u) then true else false | None => true end) (parts t) = true -> coherent m t.
Proof.
  intros H. rewrite forallb_forall in H. split.
  - intros u u' Hu Hu' E. specialize (H u Hu). apply andb_true_iff in H as [H _]. rewrite forallb_forall in H. specialize (H u' Hu'). rewrite E, beq_refl in H. cbn [negb orb] in H.
    destruct (adata_dec (shape u) (shape u')); [assumption|discriminate].
  - intros u d Hu Hd. specialize (H u Hu). apply andb_true_iff in H as [_ H]. rewrite Hd in H. destruct (adata_dec d (shape u)); [assumption|discriminate].
Qed.

Example ex_coherent : coherent ex_table ex_struct.
Proof. apply coherent_dec. vm_compute. reflexivity. Qed.
Example ex_adds : add_type ex_struct ex_table = Ok (str "struct_type", ex_added) /\
  afind (str "struct_type") ex_added = Some (AStruct [(str "v", str "int32[]"); (str "o", str "int32?"); (str "va", str "variant_int32_float64")]) /\
  afind (str "variant_int32_float64") ex_added = Some (AVariant [(str "int32", str "int32"); (str "float64", str "float64")]).
Proof. vm_compute. auto. Qed.
Example ex_describes : table ex_added /\ describes ex_added ex_struct /\ distinct_names ex_added /\ utf8_names ex_added.
Proof.
  pose proof (C49_adds ex_table ex_struct ex_table_table eq_refl ex_coherent) as G. rewrite (proj1 ex_adds) in G. destruct G as (_ & _ & D & T & _). split; [exact T|]. split; [exact D|].
  assert (B : forall p fs, afind p ex_table = Some (AStruct fs) \/ afind p ex_table = Some (AVariant fs) -> fs = [(str "quantity", str "asset"); (str "contract", str "name")]).
  { intros p fs H. assert (F : Forall (fun x => match snd x with AStruct fs => fs = [(str "quantity", str "asset"); (str "contract", str "name")] | AVariant _ => False | _ => True end) ex_table).
    { unfold ex_table. repeat (constructor; [first [exact Logic.I|reflexivity]|]). constructor. }
    rewrite Forall_forall in F. destruct H as [H|H]; apply afind_In in H; apply F in H; [exact H|destruct H]. }
  apply (C49_names_stay ex_table ex_struct (str "struct_type") ex_added ex_table_table eq_refl eq_refl ex_coherent).
  - cbn [ex_struct names_distinct map fst snd fold_right type_name]. split; [|split]; [repeat constructor; cbn; intuition discriminate|repeat constructor; apply utf8_of_ascii, asciib_spec; reflexivity|].
    split; [exact Logic.I|]. split; [exact Logic.I|]. split; [|exact Logic.I]. split; [repeat constructor; cbn; intuition discriminate|]. split; [|auto].
    repeat constructor; apply utf8_of_ascii, asciib_spec; reflexivity.
  - intros p fs H. rewrite (B p fs H). repeat constructor; cbn; intuition discriminate.
  - intros p fs H. rewrite (B p fs H). repeat constructor; apply utf8_of_ascii, asciib_spec; reflexivity.
  - exact (proj1 ex_adds).
Qed.
(** A vector of vectors is refused. *)
Example ex_nested : coherent ex_table (JVec (JVec (JScalar B_int32))) /\ add_type (JVec (JVec (JScalar B_int32))) ex_table = Err E_invalid_nesting.
Proof. split; [apply coherent_dec|]; vm_compute; reflexivity. Qed.
(** A value of the struct: its native bytes and its native text, by the derived type. *)
Definition ex_val : val := VList [VList [VInt 1; VInt (-2)]; VOpt (Some (VInt 5)); VVar 0 (VInt 7)].
Example ex_converts :
  let text := str "{""v"":[1,-2],""o"":5,""va"":[""int32"",7]}" in
  let bin := [2; 1; 0; 0; 0; 254; 255; 255; 255; 1; 5; 0; 0; 0; 0; 7; 0; 0; 0] in
  bin_to_json no_floats ex_added (str "struct_type") bin (Ok (text, [])) /\
  json_to_bin no_floats ex_added (str "struct_type") text [] (Ok bin) /\
  json_to_bin_reorderable no_floats ex_added (str "struct_type") text [] (Ok bin).
Proof.
  cbv zeta. destruct ex_describes as (T & D & DN & UN).
  assert (W : wf (fun n => erase ((fun _ => JView) n)) 0 (erase ex_struct) ex_val = true) by reflexivity.
  assert (J : forall j, tdoc no_floats (fun _ => JView) 0 ex_struct ex_val = Ok j -> (height j <= 128)%nat /\ (nesting j <= 128)%nat).
  { intros j H. vm_compute in H. injection H as <-. vm_compute. lia. }
  assert (Tx : convert_to_json no_floats (fun _ => JView) 0 ex_struct ex_val = Ok (str "{""v"":[1,-2],""o"":5,""va"":[""int32"",7]}")) by (vm_compute; reflexivity).
  assert (S : survives no_floats ex_struct ex_val) by (cbn; tauto).
  pose proof (C49_bin_to_json no_floats ex_added ex_struct (fun _ => JView) 0 ex_val _ [] T eq_refl eq_refl D W Tx ltac:(vm_compute; reflexivity) (fun j H => proj2 (J j H))) as (bin & Eb & H1).
  pose proof (C49_json_to_bin no_floats ex_added ex_struct (fun _ => JView) 0 ex_val _ T eq_refl eq_refl D DN UN no_floats_ok eq_refl W S Tx ltac:(vm_compute; reflexivity) (fun j H => proj2 (J j H)))
    as (bin' & Eb' & H2 & H3).
  assert (X : bin = [2; 1; 0; 0; 0; 254; 255; 255; 255; 1; 5; 0; 0; 0; 0; 7; 0; 0; 0]) by (vm_compute in Eb; congruence).
  assert (bin' = bin) by congruence. subst bin'. rewrite app_nil_r in H1. rewrite <- X. split; [exact H1|]. split; [exact H2|]. apply H3. intros j H. apply (J j H).
Qed.

(** ** Finding: names do not tell types apart *)
(** std::variant<int32_t, int8_t> and std::variant<int32_int8>, of a struct called int32_int8, have the same name. *)
Definition twin_one : jty := JVariant [JScalar B_int32; JScalar B_int8].
Definition twin_two : jty := JVariant [JStruct (str "int32_int8") [(str "x", JScalar B_int32)]].
Definition twin_struct : jty := JStruct (str "int32_int8") [(str "x", JScalar B_int32)].
Definition twin_start : amap := Eval vm_compute in match add_type twin_struct ex_table with Ok (_, m) => m | _ => [] end.
Definition twin_table : amap := Eval vm_compute in match add_type twin_one twin_start with Ok (_, m) => m | _ => [] end.
Lemma twin_start_table : table twin_start.
Proof.
  assert (C : coherent ex_table twin_struct) by (apply coherent_dec; vm_compute; reflexivity).
  pose proof (C49_adds ex_table twin_struct ex_table_table eq_refl C) as G.
  replace (add_type twin_struct ex_table) with (Ok (abi_name twin_struct, twin_start)) in G by (vm_compute; reflexivity). tauto.
Qed.
Lemma twin_added : add_type twin_one twin_start = Ok (abi_name twin_one, twin_table). Proof. vm_compute. reflexivity. Qed.
Lemma twin_describes : table twin_table /\ describes twin_table twin_one.
Proof.
  assert (C : coherent twin_start twin_one) by (apply coherent_dec; vm_compute; reflexivity).
  pose proof (C49_adds twin_start twin_one twin_start_table eq_refl C) as G. rewrite twin_added in G. tauto.
Qed.

(** After the one was added, adding the other succeeds, adds nothing, and the pointer it returns is to the description of the
    first: the bytes of the second are shown as a value of the first. So the hypothesis [coherent] of C49 is needed. *)
Theorem C49_same_name_refuted : exists m t u m1 v bin,
  table m /\ addable t = true /\ addable u = true /\ abi_name t = abi_name u /\
  add_type t m = Ok (abi_name t, m1) /\ add_type u m1 = Ok (abi_name u, m1) /\
  wf (fun _ => TStream) 0 (erase u) v = true /\
  convert_to_bin (fun _ => TStream) 0 (erase u) v [] = Ok bin /\
  convert_to_json no_floats (fun _ => JView) 0 u v = Ok (str "[""int32_int8"",{""x"":5}]") /\
  bin_to_json no_floats m1 (abi_name u) bin (Ok (str "[""int32"",5]", [])).
Proof.
  exists twin_start, twin_one, twin_two, twin_table, (VVar 0 (VList [VInt 5])), [0; 5; 0; 0; 0].
  split; [exact twin_start_table|]. split; [reflexivity|]. split; [reflexivity|]. split; [reflexivity|]. split; [exact twin_added|]. split; [vm_compute; reflexivity|].
  split; [reflexivity|]. split; [reflexivity|]. split; [vm_compute; reflexivity|].
  destruct twin_describes as [T D].
  assert (Tx : convert_to_json no_floats (fun _ => JView) 0 twin_one (VVar 0 (VInt 5)) = Ok (str "[""int32"",5]")) by (vm_compute; reflexivity).
  assert (J : forall j, tdoc no_floats (fun _ => JView) 0 twin_one (VVar 0 (VInt 5)) = Ok j -> (nesting j <= 128)%nat) by (intros j H; vm_compute in H; injection H as <-; vm_compute; lia).
  destruct (C49_bin_to_json no_floats twin_table twin_one (fun _ => JView) 0 (VVar 0 (VInt 5)) _ [] T eq_refl eq_refl D eq_refl Tx ltac:(vm_compute; reflexivity) J) as (bin & Eb & H).
  assert (E : bin = [0; 5; 0; 0; 0]) by (vm_compute in Eb; congruence). subst bin. exact H.
Qed.
Print Assumptions C49_same_name_refuted.
