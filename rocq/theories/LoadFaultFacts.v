(** * LoadFaultFacts: every loading error names a fault of the definition *)
From Verif Require Import Base Abi AbiSpec AbiFacts AbiLoad LoadFault.

Lemma not_plain a m p d : inv a m -> afind p m = Some d -> is_optional_array_extension d = true -> ~ plain_text a p.
Proof. intros I H X N. apply (is_plain_spec _ _ _ _ I H) in N. congruence. Qed.
Lemma extension_entry a m p d : inv a m -> afind p m = Some d -> is_extension d = true -> extension_text a p.
Proof.
  intros I H X. destruct d; try discriminate. destruct (inv_data _ _ I _ _ H) as [(b & -> & N & _) _]. split; eauto.
Qed.

Lemma no_needs a t : ~ declared a t -> ends_with t (str "?") = false -> ends_with t (str "[]") = false -> ends_with t (str "$") = false ->
  forall u, ~ needs a t u.
Proof.
  intros N A B C u H. inversion H; subst.
  - apply N. eexists. eassumption.
  - rewrite ends_with_app in A. discriminate.
  - rewrite ends_with_app in B. discriminate.
  - rewrite ends_with_app in C. discriminate.
Qed.

Lemma get_type_fault a d : forall m t e, inv a m -> get_type d m t = Err e -> text_fault a e d t.
Proof.
  induction d as [|d IH]; intros m t e I H; cbn [get_type] in H.
  - assert (e = E_recursion_limit_reached) by congruence. subst. constructor.
  - destruct (afind t m) as [x|] eqn:Ht.
    + destruct (inv_data _ _ I _ _ Ht) as [R F]. destruct x; try discriminate. cbn in R. rename t0 into s.
      pose proof (get_type_good a d m s I) as G. destruct (get_type d m s) as [[p m1]|e1|w] eqn:E; cbn [bind] in H; [| |discriminate].
      * cbn in G. destruct G as (I1 & _ & D1 & P1). destruct (deref_present _ _ P1) as (y & Hd & Hy). rewrite Hd in H. cbn [bind] in H.
        destruct (is_extension y) eqn:X; cbn [negb check bind] in H; [|discriminate]. assert (e = E_extension_typedef) by congruence. subst.
        exact (fault_alias a d t s p R D1 (extension_entry _ _ _ _ I1 Hy X)).
      * assert (e1 = e) by congruence. subst. exact (fault_behind a e d t s (needs_target a t s R) (IH _ _ _ I E)).
    + pose proof (no_decl _ _ _ I Ht) as ND.
      destruct (ends_with t (str "?")) eqn:E1; [|destruct (ends_with t (str "[]")) eqn:E2; [|destruct (ends_with t (str "$")) eqn:E3]].
      * apply ends_with_spec in E1. destruct E1 as [b ->]. change 1%nat with (List.length (str "?")) in H. rewrite drop_last_app in H.
        pose proof (get_type_good a d m b I) as G. destruct (get_type d m b) as [[p m1]|e1|w] eqn:E; cbn [bind] in H; [| |discriminate].
        -- cbn in G. destruct G as (I1 & _ & D1 & P1). destruct (deref_present _ _ P1) as (y & Hd & Hy). rewrite Hd in H. cbn [bind] in H.
           destruct (is_optional_array_extension y) eqn:X; cbn [negb check bind] in H; [|discriminate]. assert (e = E_invalid_nesting) by congruence. subst.
           exact (fault_optional a d b p ND D1 (not_plain _ _ _ _ I1 Hy X)).
        -- assert (e1 = e) by congruence. subst. exact (fault_behind a e d _ b (needs_optional a b ND) (IH _ _ _ I E)).
      * apply ends_with_spec in E2. destruct E2 as [b ->]. change 2%nat with (List.length (str "[]")) in H. rewrite drop_last_app in H.
        pose proof (get_type_good a d m b I) as G. destruct (get_type d m b) as [[p m1]|e1|w] eqn:E; cbn [bind] in H; [| |discriminate].
        -- cbn in G. destruct G as (I1 & _ & D1 & P1). destruct (deref_present _ _ P1) as (y & Hd & Hy). rewrite Hd in H. cbn [bind] in H.
           destruct (is_optional_array_extension y) eqn:X; cbn [negb check bind] in H; [|discriminate]. assert (e = E_invalid_nesting) by congruence. subst.
           exact (fault_array a d b p ND D1 (not_plain _ _ _ _ I1 Hy X)).
        -- assert (e1 = e) by congruence. subst. exact (fault_behind a e d _ b (needs_element a b ND) (IH _ _ _ I E)).
      * apply ends_with_spec in E3. destruct E3 as [b ->]. change 1%nat with (List.length (str "$")) in H. rewrite drop_last_app in H.
        pose proof (get_type_good a d m b I) as G. destruct (get_type d m b) as [[p m1]|e1|w] eqn:E; cbn [bind] in H; [| |discriminate].
        -- cbn in G. destruct G as (I1 & _ & D1 & P1). destruct (deref_present _ _ P1) as (y & Hd & Hy). rewrite Hd in H. cbn [bind] in H.
           destruct (is_extension y) eqn:X; cbn [negb check bind] in H; [|discriminate]. assert (e = E_invalid_nesting) by congruence. subst.
           exact (fault_extension a d b p ND D1 (extension_entry _ _ _ _ I1 Hy X)).
        -- assert (e1 = e) by congruence. subst. exact (fault_behind a e d _ b (needs_extended a b ND) (IH _ _ _ I E)).
      * assert (e = E_unknown_type) by congruence. subst. exact (fault_unknown a d t ND (no_needs a t ND E1 E2 E3)).
Qed.

Lemma get_types_fault a d ms : forall m e, inv a m -> get_types d ms m = Err e -> exists n t, In (n, t) ms /\ text_fault a e d t.
Proof.
  induction ms as [|[n t] ms IH]; intros m e I H; cbn [get_types] in H; [discriminate|].
  pose proof (get_type_good a d m t I) as G. destruct (get_type d m t) as [[p m1]|e1|w] eqn:E; cbn [bind] in H; [| |discriminate].
  - cbn in G. destruct G as (I1 & _). destruct (get_types d ms m1) as [[r m2]|e2|w] eqn:E2; cbn [bind] in H; try discriminate.
    assert (e2 = e) by congruence. subst. destruct (IH _ _ I1 E2) as (n' & t' & Hin & X). exists n', t'. split; [right; exact Hin|exact X].
  - assert (e1 = e) by congruence. subst. exists n, t. split; [left; reflexivity|]. exact (get_type_fault a d m t e I E).
Qed.

Lemma not_a_struct a m p x : functional a -> inv a m -> afind p m = Some x ->
  match x with AStruct _ | AStructDef _ => False | _ => True end -> forall b fs, ~ declares a p (DStruct b fs).
Proof.
  intros F I H X b fs D. destruct (inv_data _ _ I _ _ H) as [R _].
  destruct x; try contradiction; cbn in R.
  - destruct R as [_ R]. discriminate (F _ _ _ D R).
  - discriminate (F _ _ _ D R).
  - discriminate (F _ _ _ D R).
  - destruct R as (s & R & _). discriminate (F _ _ _ D R).
  - destruct R as (s & _ & N & _). apply N. eexists. exact D.
  - destruct R as (s & _ & N & _). apply N. eexists. exact D.
  - destruct R as (s & _ & N & _). apply N. eexists. exact D.
  - destruct R as (ts & k & R & _). discriminate (F _ _ _ D R).
Qed.

Lemma resolve_struct_fault a d : functional a -> forall m s name e, inv a m ->
  declares a name (DStruct (sd_base s) (field_pairs (sd_fields s))) -> resolve_struct d m s = Err e -> struct_fault a e d name.
Proof.
  intros Fn. induction d as [|d IH]; intros m s name e I D H; cbn [resolve_struct] in H.
  - assert (e = E_recursion_limit_reached) by congruence. subst. exact (struct_too_deep a name _ _ D).
  - assert (Fields : forall m1 bf, inv a m1 -> (let* (own, m2) := get_types d (field_pairs (sd_fields s)) m1 in Ok (bf ++ own, m2)) = Err e -> struct_fault a e (S d) name).
    { intros m1 bf I1 H1. destruct (get_types d (field_pairs (sd_fields s)) m1) as [[own m2]|e1|w] eqn:E; cbn [bind] in H1; try discriminate.
      assert (e1 = e) by congruence. subst. destruct (get_types_fault a d _ m1 e I1 E) as (f & t & Hin & X). exact (struct_field a e d name _ _ f t D Hin X). }
    destruct (sd_base s) as [|c b] eqn:Eb.
    { cbn [bind] in H. exact (Fields m [] I H). }
    assert (NB : c :: b <> []) by discriminate.
    pose proof (get_type_good a d m (c :: b) I) as G.
    destruct (get_type d m (c :: b)) as [[p m1]|e1|w] eqn:E; cbn [good_ptr bind] in G, H; [| |discriminate].
    2:{ assert (e1 = e) by congruence. subst. exact (struct_base_text a e d name _ _ D NB (get_type_fault a d m _ e I E)). }
    destruct G as (I1 & E1 & D1 & P1). destruct (deref_present _ _ P1) as (x & Hd & Hx). rewrite Hd in H. cbn [bind] in H.
    destruct (inv_data _ _ I1 _ _ Hx) as [R F].
    assert (Bad : match x with AStruct _ | AStructDef _ => False | _ => True end -> e = E_base_not_a_struct -> struct_fault a e (S d) name).
    { intros X ->. exact (struct_base_not_a_struct a d name _ _ p D NB D1 (not_a_struct a m1 p x Fn I1 Hx X)). }
    destruct x; cbn [bind] in H; try (rewrite Hd in H; cbn [bind] in H; apply Bad; [exact Logic.I|congruence]).
    + cbn in R. pose proof (resolve_struct_good a d m1 s0 p I1 R) as G.
      destruct (resolve_struct d m1 s0) as [[fs m2]|e2|w] eqn:E2; cbn [good_struct bind] in G, H; [| |discriminate].
      * destruct G as (I2 & E3 & SF & P2). assert (present m2 p) as Pp by (apply E3; auto).
        assert (afind p (aset p (AStruct fs) m2) = Some (AStruct fs)) as Hp.
        { rewrite afind_aset, beq_refl. destruct (afind p m2) eqn:Y; auto. contradiction. }
        unfold deref in H at 1. rewrite Hp in H. cbn [bind] in H. apply (Fields _ _ (inv_aset a m2 p (AStruct fs) I2 SF P2) H).
      * assert (e2 = e) by congruence. subst. exact (struct_base a e d name _ _ p D NB D1 (IH m1 s0 p e I1 R E2)).
    + rewrite Hd in H. cbn [bind] in H. exact (Fields _ _ I1 H).
Qed.

Lemma get_type_alias d m k t : afind k m = Some (AAliasDef t) ->
  get_type (S d) m k = let* (p, m1) := get_type d m t in let* x := deref p m1 in let* _ := check (negb (is_extension x)) E_extension_typedef in Ok (p, aset k (AAlias p) m1).
Proof. intros H. cbn [get_type]. rewrite H. reflexivity. Qed.

Lemma fill_fault a m k e : functional a -> inv a m -> fill 32 m k = Err e -> type_fault a e.
Proof.
  intros Fn I H. unfold fill, deref in H. destruct (afind k m) as [x|] eqn:Hx; cbn [bind] in H; [|discriminate].
  destruct (inv_data _ _ I _ _ Hx) as [R F]. destruct x; try discriminate; cbn in R.
  - left. exists k, t. split; [exact R|]. apply (get_type_fault a 32 m k e I). etransitivity; [exact (get_type_alias 31 m k t Hx)|].
    revert H. generalize 31%nat. intros d H. destruct (get_type d m t) as [[p m1]|e1|w]; cbn [bind] in H |- *; [|assert (e1 = e) by congruence; subst; reflexivity|discriminate].
    unfold deref. destruct (afind p m1) as [y|]; cbn [bind] in H |- *; [|discriminate].
    destruct (is_extension y); cbn [negb check bind] in H |- *; [|discriminate].
    assert (E_extension_typedef = e) by congruence. subst. reflexivity.
  - right. left. exists k. destruct (resolve_struct 32 m s) as [[fs m1]|e1|w] eqn:E; cbn [bind] in H; try discriminate.
    assert (e1 = e) by congruence. subst. exact (resolve_struct_fault a 32 Fn m s k e I R E).
  - right. right. destruct (resolve_variant 32 m v) as [[fs m1]|e1|w] eqn:E; cbn [bind] in H; try discriminate.
    assert (e1 = e) by congruence. subst. cbn [resolve_variant] in E. destruct (get_types_fault a 31 _ m e I E) as (n & t & Hin & X).
    exists k, (vd_types v), t. split; [exact R|]. split; [|exact X]. unfold variant_pairs in Hin. apply in_map_iff in Hin. destruct Hin as (t' & Q & Hin).
    assert (t' = t) by congruence. subst. exact Hin.
Qed.

Lemma fill_all_fault a ks : functional a -> forall m e, inv a m -> Forall (present m) ks -> fill_all ks m = Err e -> type_fault a e.
Proof.
  intros Fn. induction ks as [|k ks IH]; intros m e I P H; cbn [fill_all] in H; [discriminate|].
  inversion P as [|? ? Pk Pks]; subst. destruct (fill_good a m k I Pk) as [G _].
  destruct (fill 32 m k) as [m1|e1|w] eqn:E; cbn [good_fill bind] in G, H; [| |discriminate].
  - destruct G as [I1 E1]. refine (IH m1 e I1 _ H). eapply Forall_impl; [|exact Pks]. apply E1.
  - assert (e1 = e) by congruence. subst. exact (fill_fault a m k e Fn I E).
Qed.

Lemma convert_fault a e : convert a = Err e -> fault a e.
Proof.
  unfold convert. intros H. pose proof (declare_names a) as DN. pose proof (declare_spec (declarations a) initial_types) as S.
  destruct (declare (declarations a) initial_types) as [m|e1|w] eqn:Ed; cbn [bind] in H.
  - destruct (proj1 DN ltac:(eauto)) as [NE ND]. right. right. split; [exact ND|].
    destruct (fill_all (map fst m) m) as [m'|e1|w] eqn:E; cbn [bind] in H; try discriminate. assert (e1 = e) by congruence. subst.
    exact (fill_all_fault a _ (names_functional a ND) m e (declared_inv a m Ed) (keys_present m) E).
  - assert (e1 = e) by congruence. subst. destruct S as [[-> X]|[-> X]].
    + left. split; [reflexivity|]. unfold declared_names. rewrite <- declarations_names, !in_app_iff. tauto.
    + right. left. split; [reflexivity|]. intros ND. apply X.
      replace (declared_names a) with ((map str builtin_type_names ++ [str "extended_asset"]) ++ map fst (declarations a)) in ND
        by (unfold declared_names; rewrite declarations_names, <- !app_assoc; reflexivity).
      apply NoDup_app in ND. destruct ND as (_ & ND & Dis). split; [exact ND|]. apply Forall_forall. intros y Hy.
      destruct (afind (fst y) initial_types) eqn:Fy; [exfalso|reflexivity]. apply (Dis (fst y)); [|apply in_map; exact Hy].
      apply initial_keys. unfold present. congruence.
  - discriminate.
Qed.
