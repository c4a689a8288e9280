(** * C50: exporting an abi and loading it again

    Vocabulary: [table m] (AddTypeSpec.v): the type tables of a program, made by loading a definition,
    looking up types and adding C++ types; [rename], [own_tags], [part_of] (AbiExportSpec.v). *)
From Verif Require Import Base Stream TypedBin Asset Json JsonSpec Keys Abi AbiSpec AbiFacts AbiLoad Prop_Abi AbiScalar AbiValue Machine AbiBin AbiBinFacts AbiBinSound AbiUse Prop_AbiBin AbiJson AbiJsonFacts Prop_AbiJson AbiStable
  TypedJson AddType AddTypeSpec AddTypeFacts AddTypeRun Prop_AddType AbiExportSpec AbiExportFacts.

Lemma lookup_table c t p c' : abi_get_type c t = Ok (p, c') -> get_type 32 (abi_types c) t = Ok (p, abi_types c').
Proof.
  unfold abi_get_type. generalize 32%nat. intros n H. apply bind_Ok in H as ([q m'] & G & H). injection H as <- <-. exact G.
Qed.
Lemma table_lookup_ok c t p m' : get_type 32 (abi_types c) t = Ok (p, m') -> abi_get_type c t = Ok (p, Abi (action_types c) (table_types c) m').
Proof. unfold abi_get_type. generalize 32%nat. intros n H. rewrite H. reflexivity. Qed.
Lemma export_lookup m t d : canon m -> forall p m', get_type d m t = Ok (p, m') ->
  faithful (export m) (renamed m') /\ denotes (export m) t p /\ afind p m' <> None /\ canon m'.
Proof.
  intros C p m' G.
  pose proof (get_type_faithful (export m) (renamed m) d t (export_functional _ C) (export_faithful _ C)) as F. rewrite get_type_renamed, G in F. cbn [after fst snd] in F.
  destruct F as (F & D & P). split; [exact F|]. split; [exact D|]. split; [|now destruct (get_type_canon _ _ _ _ _ C G)].
  unfold present in P. rewrite afind_renamed in P. destruct (afind p m'); [discriminate|contradiction].
Qed.
Lemma reload_lookup a m t d : functional a -> faithful a m -> forall p m', get_type d m t = Ok (p, m') ->
  faithful a m' /\ denotes a t p /\ afind p m' <> None.
Proof. intros F Fa p m' G. pose proof (get_type_faithful a m d t F Fa) as X. rewrite G in X. exact X. Qed.
Lemma export_finds m t d p : canon m -> (3 <= d)%nat -> denotes (export m) t p -> exists m', get_type d m t = Ok (p, m').
Proof.
  intros C L D. destruct (get_type_runtime _ _ t p d (export_functional _ C) (export_faithful _ C) L D) as [m' G]. rewrite get_type_renamed in G.
  destruct (get_type d m t) as [[p' m1]| |]; cbn [after fst snd] in G; try discriminate G. assert (p' = p) by congruence. subst p'. eauto.
Qed.

(** Every abi can be exported; the exported definition loads; the same type texts are found, as the
    same types, described alike, up to the names of the alternatives of variants. *)
Theorem C50_reload c :
  table (abi_types c) -> afind [] (abi_types c) = None ->
  exists def c2, convert_back c = Ok def /\ convert def = Ok c2 /\
  forall t,
    (forall p c', abi_get_type c t = Ok (p, c') ->
       exists c2', abi_get_type c2 t = Ok (p, c2') /\
       forall q, part_of (abi_types c') p q -> exists d, afind q (abi_types c') = Some d /\ afind q (abi_types c2') = Some (rename d)) /\
    (forall p c2', abi_get_type c2 t = Ok (p, c2') -> exists c', abi_get_type c t = Ok (p, c')).
Proof.
  intros T Ne. assert (L3 : (3 <= 32)%nat) by lia. pose proof (table_canon _ T) as C. pose proof (export_well_formed _ C Ne) as W. pose proof (export_functional _ C) as F.
  destruct (C27_accepts _ W) as [c2 E2]. exists (export (abi_types c)), c2. split; [now apply convert_back_eq|]. split; [exact E2|].
  pose proof (convert_total (export (abi_types c))) as Q. rewrite E2 in Q. destruct Q as (_ & _ & Fa). intros t. split.
  - intros p c' H. apply lookup_table in H. destruct (export_lookup _ t _ C p _ H) as (Fr & D & P & C'). destruct (get_type_runtime _ _ t p 32%nat F Fa L3 D) as [m2' G].
    exists (Abi (action_types c2) (table_types c2) m2').
    split; [now apply table_lookup_ok|]. cbn [abi_types]. destruct (reload_lookup _ _ t _ F Fa p _ G) as (Fa' & _ & P2).
    assert (B : forall q, part_of (abi_types c') p q -> both (renamed (abi_types c')) m2' q).
    { intros q Hq. induction Hq as [|q d r Hq IH Hd Hr].
      - apply (faithful_both _ _ _ _ F Fr Fa'); [|exact P2]. rewrite afind_renamed. destruct (afind p (abi_types c')); [discriminate|contradiction].
      - apply (faithful_closed _ _ _ F Fr Fa' q (rename d) r IH); [rewrite afind_renamed, Hd; reflexivity|]. now rewrite pointers_rename. }
    intros q Hq. destruct (B q Hq) as (d' & H1 & H2). rewrite afind_renamed in H1. destruct (afind q (abi_types c')) as [d|]; [|discriminate]. exists d. split; [reflexivity|]. cbn [option_map] in H1. congruence.
  - intros p c2' H. apply lookup_table in H. destruct (reload_lookup _ _ t _ F Fa p _ H) as (_ & D & _).
    destruct (export_finds _ t _ p C L3 D) as [m' G]. eexists. apply table_lookup_ok. exact G.
Qed.
Print Assumptions C50_reload.

(** So the conversions are the same, if no variant has an alternative named by an alias. *)
Theorem C50_conversions E c def c2 t p c' c2' :
  table (abi_types c) -> afind [] (abi_types c) = None -> own_tags (abi_types c) ->
  convert_back c = Ok def -> convert def = Ok c2 ->
  abi_get_type c t = Ok (p, c') -> abi_get_type c2 t = Ok (p, c2') ->
  (forall bin r, bin_to_json E (abi_types c') p bin r <-> bin_to_json E (abi_types c2') p bin r) /\
  (forall text bin r, json_to_bin E (abi_types c') p text bin r <-> json_to_bin E (abi_types c2') p text bin r) /\
  (forall text bin r, json_to_bin_reorderable E (abi_types c') p text bin r <-> json_to_bin_reorderable E (abi_types c2') p text bin r).
Proof.
  intros T Ne Ow H1 H2 G1 G2. pose proof (table_canon _ T) as C. pose proof (export_functional _ C) as F. rewrite (convert_back_eq c C) in H1. injection H1 as <-.
  pose proof (convert_total (export (abi_types c))) as Q. rewrite H2 in Q. destruct Q as (_ & _ & Fa).
  apply lookup_table in G1, G2. destruct (export_lookup _ t _ C p _ G1) as (Fr & _ & P & _). destruct (reload_lookup _ _ t _ F Fa p _ G2) as (Fa' & _ & P2).
  assert (R : renamed (abi_types c') = abi_types c').
  { pose proof (get_type_renamed 32 (abi_types c) t) as X. rewrite (renamed_own _ Ow (cn_keys _ C)), G1 in X. revert X. cbn [after fst snd]. congruence. }
  rewrite R in Fr. clear R G1 G2 H2.
  assert (B : both (abi_types c') (abi_types c2') p) by (apply (faithful_both _ _ _ _ F Fr Fa'); assumption).
  assert (B' : both (abi_types c2') (abi_types c') p) by (apply (faithful_both _ _ _ _ F Fa' Fr); assumption).
  pose proof (faithful_closed _ _ _ F Fr Fa') as K. pose proof (faithful_closed _ _ _ F Fa' Fr) as K'.
  split; [|split]; intros; split; intros X; [eapply bin_to_json_same; eauto|eapply bin_to_json_same; eauto|eapply json_to_bin_same; eauto|eapply json_to_bin_same; eauto|eapply reorderable_same; eauto|eapply reorderable_same; eauto].
Qed.
Print Assumptions C50_conversions.

(** The tables of loaded definitions, after any lookups, are as the two theorems above want them. *)
Theorem C50_of_a_loaded_definition a c0 c :
  convert a = Ok c0 -> after_lookups c0 c -> table (abi_types c) /\ afind [] (abi_types c) = None.
Proof.
  intros H L. split.
  - induction L as [|c1 c2 t p L IH G|c1 t e L IH G]; [eapply table_convert; exact H| |].
    + apply lookup_table in G. apply table_ok in G. rewrite <- G. now apply table_lookup.
    + unfold abi_looked_up. cbn [abi_types]. now apply table_lookup.
  - pose proof (convert_total a) as T. rewrite H in T. destruct T as (_ & NE & _). destruct (C26_lookup a c0 c [] H L) as [[_ Fb] _].
    destruct (afind [] (abi_types c)) as [d|] eqn:E; [|reflexivity]. exfalso. destruct (Fb _ _ E) as [D _].
    assert (X : forall x, ~ declares a [] x).
    { intros x Dx. apply decl_list_in in Dx. apply (in_map fst) in Dx. rewrite decl_list_names in Dx. contradiction. }
    destruct d; cbn [described] in D.
    + destruct D as [_ D]. eapply X; exact D.
    + exact D.
    + exact D.
    + exact D.
    + destruct D as (s & D & _). eapply X; exact D.
    + destruct D as (b & D & _). symmetry in D. apply app_eq_nil in D as [_ D]. discriminate D.
    + destruct D as (b & D & _). symmetry in D. apply app_eq_nil in D as [_ D]. discriminate D.
    + destruct D as (b & D & _). symmetry in D. apply app_eq_nil in D as [_ D]. discriminate D.
    + destruct D as (k & D). inversion D; eapply X; eassumption.
    + destruct D as (ts & k & D & _). eapply X; exact D.
Qed.
Print Assumptions C50_of_a_loaded_definition.

(** The export carries no action, table, clause, error message or extension, whatever the definition had:
    after a reload no action or table has a type. *)
Theorem C50_drops_the_rest c def c2 :
  table (abi_types c) -> convert_back c = Ok def -> convert def = Ok c2 ->
  ad_version def = str "eosio::abi/1.0" /\ ad_actions def = [] /\ ad_tables def = [] /\ ad_clauses def = [] /\ ad_errors def = [] /\ ad_extensions def = [] /\
  (forall n, zfind n (action_types c2) = None) /\ (forall n, zfind n (table_types c2) = None).
Proof.
  intros T H H2. rewrite (convert_back_eq c (table_canon _ T)) in H. injection H as <-. 
  repeat (split; [reflexivity|]). unfold convert in H2. apply bind_Ok in H2 as (m & _ & H2). apply bind_Ok in H2 as (m' & _ & H2). injection H2 as <-.
  split; reflexivity.
Qed.
Print Assumptions C50_drops_the_rest.

(** Finding: with an alternative named by an alias, the same bytes are shown with another name after a
    reload, and the text shown before is refused. *)
Definition alias_tag_def : abi_def :=
  AbiDef (str "eosio::abi/1.0") [TypeDef (str "acct") (str "name")] [] [] [] [] [] [] [VariantDef (str "v") [str "acct"; str "uint8"]].
Definition alias_tag_bin : bytes := [0; 0; 0; 0; 0; 0; 0; 0; 0].
Definition alias_tag_tables : option (amap * amap) := Eval vm_compute in
  match (let* c := convert alias_tag_def in let* def := convert_back c in let* c2 := convert def in Ok (abi_types c, abi_types c2)) with Ok x => Some x | _ => None end.
Definition alias_tag_table : amap := Eval vm_compute in match alias_tag_tables with Some x => fst x | None => [] end.
Definition alias_tag_again : amap := Eval vm_compute in match alias_tag_tables with Some x => snd x | None => [] end.
Theorem C50_alias_tags_refuted : exists c def c2 c' c2',
  convert alias_tag_def = Ok c /\ convert_back c = Ok def /\ convert def = Ok c2 /\
  abi_get_type c (str "v") = Ok (str "v", c') /\ abi_get_type c2 (str "v") = Ok (str "v", c2') /\
  bin_to_json no_floats (abi_types c') (str "v") alias_tag_bin (Ok (str "[""acct"",""""]", [])) /\
  bin_to_json no_floats (abi_types c2') (str "v") alias_tag_bin (Ok (str "[""name"",""""]", [])) /\
  json_to_bin no_floats (abi_types c') (str "v") (str "[""acct"",""""]") [] (Ok alias_tag_bin) /\
  json_to_bin no_floats (abi_types c2') (str "v") (str "[""acct"",""""]") [] (Err E_invalid_type_for_variant).
Proof.
  assert (H1 : convert alias_tag_def = Ok (Abi [] [] alias_tag_table)) by (vm_compute; reflexivity).
  destruct (convert_back (Abi [] [] alias_tag_table)) as [def|e|w] eqn:H2; [|exfalso; vm_compute in H2; discriminate H2..].
  assert (H3 : convert def = Ok (Abi [] [] alias_tag_again)).
  { vm_compute in H2. injection H2 as <-. vm_compute. reflexivity. }
  exists (Abi [] [] alias_tag_table), def, (Abi [] [] alias_tag_again), (Abi [] [] alias_tag_table), (Abi [] [] alias_tag_again).
  split; [exact H1|]. split; [exact H2|]. split; [exact H3|]. clear H1 H2 H3.
  split; [vm_compute; reflexivity|]. split; [vm_compute; reflexivity|]. cbn [abi_types].
  split; [apply bin_to_json_eq; vm_compute; reflexivity|]. split; [apply bin_to_json_eq; vm_compute; reflexivity|].
  assert (S1 : sound_map alias_tag_table) by (apply (proj1 (convert_scalars alias_tag_def (Abi [] [] alias_tag_table) ltac:(vm_compute; reflexivity)))).
  assert (S2 : sound_map alias_tag_again).
  { destruct (convert_back (Abi [] [] alias_tag_table)) as [def'|e|w] eqn:H2; [|exfalso; vm_compute in H2; discriminate H2..].
    apply (proj1 (convert_scalars def' (Abi [] [] alias_tag_again) ltac:(vm_compute in H2; injection H2 as <-; vm_compute; reflexivity))). }
  assert (T : tokenize (str "[""acct"",""""]") = (tokens (JArr [JStr (str "acct"); JStr []]), None)) by (vm_compute; reflexivity).
  assert (Hb : bytes_ok (str "[""acct"",""""]")) by (apply bytes_okb_spec; reflexivity).
  destruct (doc_ok _ _ Hb ltac:(vm_compute; reflexivity) T) as [Tx _].
  split.
  - pose proof (json_to_bin_run no_floats alias_tag_table (str "v") _ _ [] no_floats_ok S1 Tx T) as R. eapply eq_rect; [exact R|]. vm_compute. reflexivity.
  - pose proof (json_to_bin_run no_floats alias_tag_again (str "v") _ _ [] no_floats_ok S2 Tx T) as R. eapply eq_rect; [exact R|]. vm_compute. reflexivity.
Qed.
Print Assumptions C50_alias_tags_refuted.

(** The hypotheses are met by a table with a C++ struct added to it. *)
Example C50_hypotheses :
  table ex_added /\ afind [] ex_added = None /\ own_tags ex_added /\
  exists def c2, convert_back (Abi [] [] ex_added) = Ok def /\ convert def = Ok c2 /\
    In (VariantDef (str "variant_int32_float64") [str "int32"; str "float64"]) (ad_variants def) /\
    afind (str "struct_type") (abi_types c2) = afind (str "struct_type") ex_added.
Proof.
  split; [exact (proj1 ex_describes)|]. split; [reflexivity|]. split.
  - assert (F : Forall (fun x => match snd x with AVariant fs => Forall (fun f => fst f = snd f) fs | _ => True end) ex_added).
    { unfold ex_added. repeat (constructor; [first [exact Logic.I|cbn [snd]; repeat constructor]|]). constructor. }
    intros p fs H. apply afind_In in H. rewrite Forall_forall in F. exact (F _ H).
  - destruct (convert_back (Abi [] [] ex_added)) as [def|e|w] eqn:H2; [|exfalso; vm_compute in H2; discriminate H2..]. exists def.
    destruct (convert def) as [c2|e|w] eqn:H3; [|exfalso; vm_compute in H2; injection H2 as <-; vm_compute in H3; discriminate H3..].
    exists c2. split; [reflexivity|]. split; [reflexivity|]. vm_compute in H2. injection H2 as <-. split; [left; reflexivity|]. vm_compute in H3. injection H3 as <-. reflexivity.
Qed.
