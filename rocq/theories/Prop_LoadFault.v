(** * C26, C27, C64: what a loading error says about the definition *)
From Verif Require Import Base Abi AbiSpec AbiFacts AbiLoad Prop_Abi LoadFault LoadFaultFacts Reload ReloadSpec ReloadFacts Prop_Reload.

(** Every error of loading names a fault the definition has: an empty name, a name declared twice, or - in a type text, a
    struct or its base which the definition mentions - an unknown type, a forbidden nesting, an alias of an extension, a base
    which is not a struct, or a chain of references of the length of the limit. *)
Theorem C27_error_means a e : convert a = Err e -> fault a e.
Proof. apply convert_fault. Qed.
Print Assumptions C27_error_means.

(** So if a definition which is not well formed has only one kind of fault, that is the error. *)
Theorem C27_only_fault a e : (forall n, ~ well_formed a n) -> (forall e', fault a e' -> e' = e) -> convert a = Err e.
Proof.
  intros W O. pose proof (C26_load_total a) as T. destruct (convert a) as [c|e'|w] eqn:C; [| |contradiction].
  - destruct (C27_rejects a c C) as [n X]. exfalso. exact (W n X).
  - f_equal. exact (O e' (C27_error_means a e' C)).
Qed.
Print Assumptions C27_only_fault.

(** ** The faults are faults: only the limit can stop the loading of a definition which has a meaning. *)
Ltac clash := exfalso; first [eapply suffix_qa; eassumption | eapply suffix_qd; eassumption | eapply suffix_da; eassumption |
  eapply suffix_qa; symmetry; eassumption | eapply suffix_qd; symmetry; eassumption | eapply suffix_da; symmetry; eassumption].
Lemma text_fault_no_meaning a : functional a -> forall e n t, text_fault a e n t -> e <> E_recursion_limit_reached -> forall p, ~ denotes a t p.
Proof.
  intros F e n t H. induction H as [t|e n t u N X IH|n t N U|n b q N D P|n b q N D P|n b q N D P|n t s q D R P]; intros L p [k R'].
  - congruence.
  - specialize (IH L). inversion N as [x s D|b ND|b ND|b ND]; subst.
    + inversion R' as [? ? d D'|? ? s' ? D' R|? ? ? ND'|? ? ? ND'|? ? ? ND']; subst; try (exfalso; apply ND'; eexists; eassumption).
      * pose proof (F _ _ _ D D'). subst. eapply H; reflexivity.
      * pose proof (F _ _ _ D D') as E. assert (s' = u) by congruence. subst. exact (IH p (ex_intro _ _ R)).
    + inversion R' as [? ? d D'|? ? s' ? D' R|? b' q ND' R|? b' q ND' R|? b' q ND' R]; subst; try (apply ND; eexists; eassumption).
      * assert (b' = u) by (eapply app_inv_tail; eassumption). subst. exact (IH q (ex_intro _ _ R)).
      * clash.
      * clash.
    + inversion R' as [? ? d D'|? ? s' ? D' R|? b' q ND' R|? b' q ND' R|? b' q ND' R]; subst; try (apply ND; eexists; eassumption).
      * clash.
      * assert (b' = u) by (eapply app_inv_tail; eassumption). subst. exact (IH q (ex_intro _ _ R)).
      * clash.
    + inversion R' as [? ? d D'|? ? s' ? D' R|? b' q ND' R|? b' q ND' R|? b' q ND' R]; subst; try (apply ND; eexists; eassumption).
      * clash.
      * clash.
      * assert (b' = u) by (eapply app_inv_tail; eassumption). subst. exact (IH q (ex_intro _ _ R)).
  - inversion R'; subst.
    + apply N. eexists. eassumption.
    + apply N. eexists. eassumption.
    + eapply U. apply needs_optional. assumption.
    + eapply U. apply needs_element. assumption.
    + eapply U. apply needs_extended. assumption.
  - inversion R' as [? ? d D'|? ? s' ? D' R|? b' q' ND' R|? b' q' ND' R|? b' q' ND' R]; subst; try (apply N; eexists; eassumption).
    + assert (b' = b) by (eapply app_inv_tail; eassumption). subst. destruct D as [k' D]. rewrite (denotes_fun a F _ _ _ D _ _ R) in P. contradiction.
    + clash.
    + clash.
  - inversion R' as [? ? d D'|? ? s' ? D' R|? b' q' ND' R|? b' q' ND' R|? b' q' ND' R]; subst; try (apply N; eexists; eassumption).
    + clash.
    + assert (b' = b) by (eapply app_inv_tail; eassumption). subst. destruct D as [k' D]. rewrite (denotes_fun a F _ _ _ D _ _ R) in P. contradiction.
    + clash.
  - inversion R' as [? ? d D'|? ? s' ? D' R|? b' q' ND' R|? b' q' ND' R|? b' q' ND' R]; subst; try (apply N; eexists; eassumption).
    + clash.
    + clash.
    + assert (b' = b) by (eapply app_inv_tail; eassumption). subst. destruct D as [k' D]. rewrite (denotes_fun a F _ _ _ D _ _ R) in P. contradiction.
  - inversion R' as [? ? d D'|? ? s' ? D' R2|? ? ? ND'|? ? ? ND'|? ? ? ND']; subst; try (exfalso; apply ND'; eexists; eassumption).
    + pose proof (F _ _ _ D D'). subst. eapply H; reflexivity.
    + pose proof (F _ _ _ D D') as E. assert (s' = s) by congruence. subst. destruct R as [k' R]. rewrite (denotes_fun a F _ _ _ R _ _ R2) in P. contradiction.
Qed.

Lemma struct_fault_no_meaning a : functional a -> forall e n s, struct_fault a e n s -> e <> E_recursion_limit_reached -> forall k fs, ~ struct_fields a k s fs.
Proof.
  intros F e n s H. induction H as [name base fields D|e n name base fields D NB X|e n name base fields b D NB R X IH|n name base fields b D NB R X|e n name base fields f t D Hin X]; intros L k fs SF.
  - congruence.
  - inversion SF as [? ? ? ? D'|? ? base' ? b' ? ? ? D' R' S' M']; subst; pose proof (F _ _ _ D D') as E; [congruence|].
    assert (base' = base) by congruence. subst. exact (text_fault_no_meaning a F _ _ _ X L b' (ex_intro _ _ R')).
  - inversion SF as [? ? ? ? D'|? ? base' ? b' ? ? ? D' R' S' M']; subst; pose proof (F _ _ _ D D') as E; [congruence|].
    assert (base' = base) by congruence. subst. destruct R as [k' R]. rewrite <- (denotes_fun a F _ _ _ R _ _ R') in S'. exact (IH L _ _ S').
  - inversion SF as [? ? ? ? D'|? ? base' ? b' ? ? ? D' R' S' M']; subst; pose proof (F _ _ _ D D') as E; [congruence|].
    assert (base' = base) by congruence. subst. destruct R as [k' R]. rewrite <- (denotes_fun a F _ _ _ R _ _ R') in S'. inversion S'; subst; eapply X; eassumption.
  - assert (M : exists k' own, members_refer a k' fields own).
    { inversion SF as [? ? fields' ? D' M'|? ? base' fields' b' ? ? ? D' R' S' M']; subst; pose proof (F _ _ _ D D') as E; assert (fields' = fields) by congruence; subst; eauto. }
    destruct M as (k' & own & M). apply in_split in Hin. destruct Hin as (l1 & l2 & ->). apply Forall2_app_inv_l in M. destruct M as (o1 & o2 & _ & M & _).
    inversion M as [|? y ? ? [_ Y] _]; subst. exact (text_fault_no_meaning a F _ _ _ X L _ (ex_intro _ _ Y)).
Qed.

(** A definition with a fault other than the limit is not well formed, however long chains may be. *)
Theorem C27_faults a e : fault a e -> e <> E_recursion_limit_reached -> forall n, ~ well_formed a n.
Proof.
  intros [[_ H]|[[_ H]|[ND H]]] L n W.
  - exact (names_not_empty _ _ W H).
  - exact (H (names_distinct _ _ W)).
  - pose proof (names_functional a ND) as F. destruct H as [(t & s & D & X)|[(s & X)|(v & ts & t & D & Hin & X)]].
    + inversion D; subst. match goal with H : In ?x (ad_types a) |- _ => destruct (aliases_resolve _ _ W x H) as [p R] end. exact (text_fault_no_meaning a F _ _ _ X L p (ex_intro _ _ R)).
    + assert (Y : exists fs k, struct_fields a k s fs).
      { assert (D : exists base fields, declares a s (DStruct base fields)) by (inversion X; eauto). destruct D as (base & fields & D). inversion D; subst.
        - exists [(str "quantity", str "asset"); (str "contract", str "name")]. exists 2%nat. apply extended_asset_fields.
        - match goal with H : In ?x (ad_structs a) |- _ => destruct (structs_resolve _ _ W x H) as [fs R] end. eauto. }
      destruct Y as (fs & k & Y). exact (struct_fault_no_meaning a F _ _ _ X L _ _ Y).
    + inversion D; subst. match goal with H : In ?x (ad_variants a) |- _ => destruct (variants_resolve _ _ W x t H Hin) as [p R] end. exact (text_fault_no_meaning a F _ _ _ X L p (ex_intro _ _ R)).
Qed.
Print Assumptions C27_faults.

(** Hence a definition which is well formed, but for its long chains, can only be refused for them. *)
Theorem C27_only_the_limit a n e : well_formed a n -> convert a = Err e -> e = E_recursion_limit_reached.
Proof.
  intros W H. pose proof (C27_error_means a e H) as X. assert (D : e = E_recursion_limit_reached \/ e <> E_recursion_limit_reached) by (destruct e; (left; reflexivity) || (right; discriminate)).
  destruct D as [D|D]; [exact D|]. exfalso. exact (C27_faults a e X D n W).
Qed.
Print Assumptions C27_only_the_limit.

Lemma lookup_fault d a c t e : inv a (abi_types c) ->
  (let* (p, m) := get_type d (abi_types c) t in Ok (p, Abi (action_types c) (table_types c) m)) = Err e -> text_fault a e d t.
Proof.
  intros I G. destruct (get_type d (abi_types c) t) as [[p m]|e1|w] eqn:E; cbn [bind] in G; try discriminate. assert (e1 = e) by congruence. subst.
  exact (get_type_fault a d _ t e I E).
Qed.
(** The error of a lookup by text names the fault of the text. *)
Theorem C26_lookup_error a c c' t e : convert a = Ok c -> after_lookups c c' -> abi_get_type c' t = Err e -> text_fault a e 32 t.
Proof.
  intros H L. destruct (C26_lookup a c c' t H L) as [Fa _]. apply faithful_inv in Fa. exact (lookup_fault 32 a c' t e Fa).
Qed.
Print Assumptions C26_lookup_error.

(** ** Several loads: a load is stopped by its first name which cannot be taken, or by a fault of all definitions together. *)
Lemma declare_run_err l : forall m e, snd (declare_run l m) = Err e -> exists j n, nth_error (map fst l) j = Some n /\
  (exists m', declare (firstn j l) m = Ok m') /\ (forall m', declare (firstn (S j) l) m <> Ok m') /\
  (n = [] /\ e = E_missing_name \/ n <> [] /\ e = E_redefined_type).
Proof.
  induction l as [|[x d] l IH]; intros m e H; cbn [declare_run] in H; [discriminate|].
  destruct (beq x []) eqn:B.
  - exists 0%nat, x. cbn [map fst nth_error firstn declare]. split; [reflexivity|]. split; [eauto|]. rewrite B. cbn. split; [discriminate|]. left. apply beq_eq in B. cbn in H. split; congruence.
  - destruct (try_emplace x d m) as [m1 []] eqn:T; cbn [snd] in H.
    + destruct (IH m1 e H) as (j & n & N & D & U & X). exists (S j), n. cbn [map fst nth_error]. split; [exact N|].
      cbn [firstn declare]. rewrite B, T. cbn [negb check bind]. split; [exact D|]. split; [exact U|exact X].
    + exists 0%nat, x. cbn [map fst nth_error firstn declare]. split; [reflexivity|]. split; [eauto|]. rewrite B, T. cbn. split; [discriminate|]. right. apply beq_neq in B. cbn in H. split; congruence.
Qed.

Theorem C64_error_means a c r b k c' e : history a c r -> takes c b k -> convert_run b c = (c', Err e) ->
  (exists n, nth_error (own_names b) k = Some n /\ (n = [] /\ e = E_missing_name \/ n <> [] /\ e = E_redefined_type)) \/
  (k = List.length (own_names b) /\ type_fault (merge a b) e).
Proof.
  intros H T R. pose proof (history_good a c r H) as (F & I0 & _). pose proof (usable_inv a c I0) as U.
  unfold convert_run in R. rewrite (emplace_initial_present a _ I0) in R. destruct (takes_run c _ b k U T) as [D S].
  destruct (declare_run (declarations b) (abi_types c)) as [m1 r1] eqn:E. cbn [fst snd] in D, S. destruct r1 as [u|e1|w]; [| |contradiction].
  - right. split; [exact S|]. subst k. rewrite first_declarations_all in D.
    assert (Cl : clear_names (abi_types c) (map fst (declarations b))) by (apply declare_clear; eauto). destruct Cl as [Cf Cn].
    assert (Fr : fresh b (abi_types c)) by (intros n Hn; rewrite Forall_forall in Cf; exact (proj2 (Cf n Hn))).
    pose proof (merge_functional a b _ F I0 Fr Cn) as F2. pose proof (merge_inv a b _ F I0 Fr _ D) as I2.
    pose proof (fill_all_run_spec (map fst m1) m1) as Q. destruct (fill_all (map fst m1) m1) as [m2|e2|w] eqn:FA.
    + rewrite Q in R. discriminate.
    + destruct Q as (m2 & Q). rewrite Q in R. assert (e2 = e) by congruence. subst. exact (fill_all_fault _ _ F2 m1 e I2 (keys_present m1) FA).
    + destruct Q as (m2 & Q). rewrite Q in R. discriminate.
  - left. assert (e1 = e) by congruence. subst. destruct (declare_run_err (declarations b) (abi_types c) e) as (j & n & N & (m2 & D2) & Un & X); [now rewrite E|].
    exists n. split; [|exact X]. assert (Tj : takes c b j).
    { assert (Lt : (j < List.length (own_names b))%nat) by (rewrite own_names_spec; apply nth_error_Some; congruence).
      split; [lia|]. split.
      - apply (new_clear c (abi_types c) _ U). rewrite own_names_spec, firstn_map. apply declare_clear. eauto.
      - intros _ Z. apply (new_clear c (abi_types c) _ U) in Z. rewrite own_names_spec, firstn_map in Z. apply declare_clear in Z. destruct Z as (m3 & Z). exact (Un m3 Z). }
    rewrite (takes_unique c b k j T Tj), own_names_spec. exact N.
Qed.
Print Assumptions C64_error_means.

(** ** Example: each error, and the fault it names *)
Example ex_faults :
  (exists e, convert (AbiDef [] [TypeDef (str "a") (str "b?[]")] [] [] [] [] [] [] []) = Err e /\ e = E_unknown_type) /\
  (let a := AbiDef [] [TypeDef (str "a") (str "b[]")] [] [] [] [] [] [] [] in
   convert a = Err E_unknown_type /\ needs a (str "a") (str "b[]")) /\
  (let a := AbiDef [] [TypeDef (str "e") (str "bool$")] [StructDef (str "s") (str "e") []] [] [] [] [] [] [] in
   convert a = Err E_extension_typedef) /\
  (let a := AbiDef [] [] [StructDef (str "s") (str "s") []] [] [] [] [] [] [] in
   convert a = Err E_recursion_limit_reached).
Proof.
  split; [eexists; split; vm_compute; reflexivity|]. split; [split; [vm_compute; reflexivity|]|split; vm_compute; reflexivity].
  apply needs_target. refine (declares_type _ (TypeDef (str "a") (str "b[]")) _). left. reflexivity.
Qed.
