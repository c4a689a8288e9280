(** * Facts behind C43: the JSON form (proofs only) *)
From Verif Require Import Base TypedBin TypedSpec Name JsonInt Json JsonSpec JsonPrint Abi AbiScalar AbiRead TypedJson TypedJsonSpec TypedJsonFacts TypedJsonRead TypedJsonText AbiDef AbiDefSpec AbiDefFacts.

(** ** Members by name *)
Lemma set_nth_length l i v : List.length (set_nth l i v) = List.length l.
Proof. revert i. induction l as [|x l IH]; intros [|i]; cbn [set_nth List.length]; auto. Qed.
Lemma set_nth_same l i v x : nth_error l i = Some x -> nth_error (set_nth l i v) i = Some v.
Proof. revert i. induction l as [|y l IH]; intros [|i] H; try discriminate; cbn [set_nth nth_error] in *; auto. Qed.
Lemma set_nth_other l i j v : i <> j -> nth_error (set_nth l i v) j = nth_error l j.
Proof. revert i j. induction l as [|y l IH]; intros [|i] [|j] H; cbn [set_nth nth_error]; auto; try congruence. Qed.
Lemma member_none k ms : member k ms = None <-> ~ In k (map fst ms).
Proof.
  induction ms as [|[k' j] ms IH]; cbn [member map fst]; [split; [intros _ []|reflexivity]|]. destruct (beq k k') eqn:B.
  - apply beq_eq in B. subst. split; [discriminate|]. intros H. exfalso. apply H. now left.
  - apply beq_neq in B. rewrite IH. split; [intros H [H1|H1]; [congruence|auto]|intros H H1; apply H; now right].
Qed.
Lemma nodup_index {A} (fs : list (bytes * A)) i j k a b : NoDup (map fst fs) -> nth_error fs i = Some (k, a) -> nth_error fs j = Some (k, b) -> i = j.
Proof.
  intros N H1 H2. rewrite NoDup_nth_error in N. apply N; [rewrite map_length; apply nth_error_Some; congruence|].
  rewrite !nth_error_map, H1, H2. reflexivity.
Qed.
Definition taken (E : float_lib) (ms : list (bytes * jv)) (k : bytes) (t : jty) (cur v : val) : Prop :=
  match member k ms with Some j => treads E t cur j v | None => v = cur end.
Lemma members_cons_inv E fs l k j ms l' : treads_members E fs l ((k, j) :: ms) l' ->
  (exists i t cur v, first_named k fs i t /\ nth_error l i = Some cur /\ treads E t cur j v /\ treads_members E fs (set_nth l i v) ms l') \/
  (~ In k (map fst fs) /\ treads_members E fs l ms l').
Proof. intros H. inversion H; subst; [left; eauto 10|right; auto]. Qed.
Lemma members_by_name E fs : NoDup (map fst fs) -> forall ms l l', NoDup (map fst ms) -> List.length l = List.length fs ->
  treads_members E fs l ms l' <->
  List.length l' = List.length fs /\
  forall i k t cur v, nth_error fs i = Some (k, t) -> nth_error l i = Some cur -> nth_error l' i = Some v -> taken E ms k t cur v.
Proof.
  intros Nf. induction ms as [|[k0 j0] ms IH]; intros l l' Nm L.
  - split.
    + intros H. inversion H; subst. split; [exact L|]. intros i k t cur v _ H1 H2. unfold taken. cbn [member]. congruence.
    + intros [L' H]. assert (l' = l); [|subst; constructor]. apply (nth_ext l' l (VInt 0) (VInt 0)); [congruence|]. intros n Hn.
      destruct (nth_error l' n) as [v|] eqn:E1; [|apply nth_error_None in E1; lia]. destruct (nth_error l n) as [cur|] eqn:E2; [|apply nth_error_None in E2; lia].
      destruct (nth_error fs n) as [[k t]|] eqn:E3; [|apply nth_error_None in E3; lia]. specialize (H n k t cur v E3 E2 E1). unfold taken in H. cbn [member] in H.
      rewrite (nth_error_nth _ _ _ E1), (nth_error_nth _ _ _ E2). exact H.
  - cbn [map fst] in Nm. apply NoDup_cons_iff in Nm as [N0 Nm]. apply member_none in N0. split.
    + intros H. apply members_cons_inv in H as [(i & t & cur & v & H3 & H4 & H5 & H8)|[H5 H6]].
      * apply IH in H8 as [L' H8]; [|exact Nm|now rewrite set_nth_length]. split; [exact L'|]. intros i' k t' cur' v' F1 F2 F3. destruct H3 as [Hf _].
        destruct (Nat.eq_dec i i') as [<-|Hi].
        -- assert (k = k0) by congruence. assert (t' = t) by congruence. assert (cur' = cur) by congruence. subst. specialize (H8 i k0 t v v' F1 (set_nth_same _ _ _ _ F2) F3).
           unfold taken in *. rewrite N0 in H8. cbn [member]. rewrite beq_refl. now subst.
        -- specialize (H8 i' k t' cur' v' F1). rewrite set_nth_other in H8 by exact Hi. specialize (H8 F2 F3). unfold taken in *. cbn [member].
           replace (beq k k0) with false; [exact H8|]. symmetry. apply beq_neq. intros ->. apply Hi. exact (nodup_index fs i i' k0 t t' Nf Hf F1).
      * apply IH in H6 as [L' H6]; [|exact Nm|exact L]. split; [exact L'|]. intros i' k t' cur' v' F1 F2 F3. specialize (H6 i' k t' cur' v' F1 F2 F3).
        unfold taken in *. cbn [member]. replace (beq k k0) with false; [exact H6|]. symmetry. apply beq_neq. intros ->. apply H5. apply nth_error_In in F1.
        apply in_map_iff. exists (k0, t'). auto.
    + intros [L' H]. destruct (find_named k0 fs 0) as [[z t]|] eqn:Fn.
      * apply find_named_first in Fn as (i & _ & Fi). pose proof Fi as [F1 _].
        assert (Hi : (i < List.length fs)%nat) by (apply nth_error_Some; congruence).
        destruct (nth_error l i) as [cur|] eqn:F2; [|apply nth_error_None in F2; lia]. destruct (nth_error l' i) as [v|] eqn:F3; [|apply nth_error_None in F3; lia].
        pose proof (H i k0 t cur v F1 F2 F3) as T. unfold taken in T. cbn [member] in T. rewrite beq_refl in T.
        eapply R_known; eauto. apply IH; [exact Nm|now rewrite set_nth_length|]. split; [exact L'|]. intros i' k t' cur' v' G1 G2 G3.
        destruct (Nat.eq_dec i i') as [<-|Hn].
        -- rewrite (set_nth_same _ _ _ _ F2) in G2. assert (k = k0) by congruence. subst k. unfold taken. rewrite N0. congruence.
        -- rewrite set_nth_other in G2 by exact Hn. specialize (H i' k t' cur' v' G1 G2 G3). unfold taken in *. cbn [member] in H.
           replace (beq k k0) with false in H; [exact H|]. symmetry. apply beq_neq. intros ->. apply Hn. exact (nodup_index fs i i' k0 t t' Nf F1 G1).
      * apply find_named_none in Fn. apply R_unknown; [exact Fn|]. apply IH; [exact Nm|exact L|]. split; [exact L'|]. intros i' k t' cur' v' G1 G2 G3.
        specialize (H i' k t' cur' v' G1 G2 G3). unfold taken in *. cbn [member] in H.
        replace (beq k k0) with false in H; [exact H|]. symmetry. apply beq_neq. intros ->. apply Fn. apply nth_error_In in G1.
        apply in_map_iff. exists (k0, t'). auto.
Qed.
(** A fresh struct. *)
Definition field_read (E : float_lib) (ms : list (bytes * jv)) (f : bytes * jty) (v : val) : Prop := taken E ms (fst f) (snd f) (jdefault (snd f)) v.
Lemma struct_reads E n fs ms v : NoDup (map fst fs) -> NoDup (map fst ms) ->
  treads E (JStruct n fs) (jdefault (JStruct n fs)) (JObj ms) v <-> exists l, v = VList l /\ Forall2 (field_read E ms) fs l.
Proof.
  intros Nf Nm. assert (D : jdefault (JStruct n fs) = VList (map (fun f => jdefault (snd f)) fs)) by (unfold jdefault; cbn [erase default_of]; now rewrite map_map).
  rewrite D. set (l0 := map (fun f => jdefault (snd f)) fs). assert (L0 : List.length l0 = List.length fs) by apply map_length.
  assert (N0 : forall i k t, nth_error fs i = Some (k, t) -> nth_error l0 i = Some (jdefault t)) by (intros i k t H; unfold l0; now rewrite nth_error_map, H).
  assert (K : forall l', (List.length l' = List.length fs /\
      forall i k t cur v, nth_error fs i = Some (k, t) -> nth_error l0 i = Some cur -> nth_error l' i = Some v -> taken E ms k t cur v) <-> Forall2 (field_read E ms) fs l').
  { intros l'. split.
    - intros [L H]. assert (H' : forall i k t v, nth_error fs i = Some (k, t) -> nth_error l' i = Some v -> taken E ms k t (jdefault t) v) by eauto. clear - L H'.
      revert l' L H'. induction fs as [|[k t] fs IH]; intros [|v l'] L H'; try discriminate; constructor.
      + exact (H' O k t v eq_refl eq_refl).
      + apply IH; [cbn in L; lia|]. intros i k' t' v'. exact (H' (S i) k' t' v').
    - intros F. split; [clear - F; induction F; cbn [List.length]; congruence|]. intros i k t cur v0 H1 H2 H3. rewrite (N0 i k t H1) in H2. assert (cur = jdefault t) by congruence. subst cur.
      clear - F H1 H3. revert i H1 H3. induction F as [|f x fs l' R _ IH]; intros [|i] H1 H3; try discriminate; cbn [nth_error] in *; [|eauto].
      assert (f = (k, t)) by congruence. assert (x = v0) by congruence. subst. exact R. }
  split.
  - intros H. inversion H; subst. match goal with H : treads_members _ _ _ _ _ |- _ => apply (members_by_name E fs Nf) in H; [apply K in H; eauto|exact Nm|exact L0] end.
  - intros (l & -> & F). constructor. apply (members_by_name E fs Nf); [exact Nm|exact L0|]. now apply K.
Qed.

(** ** Types whose reading is described by a relation *)
Definition jreads {A} (E : float_lib) (t : jty) (inj : A -> val) (R : jv -> A -> Prop) : Prop :=
  forall j v, unique j -> treads E t (jdefault t) j v <-> exists x, v = inj x /\ R j x.
Lemma jr_scalar {A} E b (inj : A -> val) (R : jv -> A -> Prop) : b <> B_bool ->
  (forall j v, (exists x, text_of j = Some x /\ scalar_from_text E b x = Ok v) <-> exists a, v = inj a /\ R j a) -> jreads E (JScalar b) inj R.
Proof.
  intros Hb H j v _. rewrite <- H. split.
  - intros T. inversion T; subst; [congruence|]. eauto.
  - intros (x & H1 & H2). eapply R_scalar; eauto.
Qed.
Lemma jr_str E : jreads E string_jty VStr json_str.
Proof.
  apply jr_scalar; [discriminate|]. intros j v. unfold json_str. split.
  - intros (x & H & Q). exists x. split; [cbn [scalar_from_text] in Q; congruence|exact H].
  - intros (a & -> & H). exists a. split; [exact H|reflexivity].
Qed.
Lemma jr_name E : jreads E (JScalar B_name) VInt json_name.
Proof.
  apply jr_scalar; [discriminate|]. intros j v. unfold json_name. split.
  - intros (x & H & Q). exists (name_from_json_string x). split; [cbn [scalar_from_text] in Q; congruence|eauto].
  - intros (a & -> & x & H & ->). exists x. split; [exact H|reflexivity].
Qed.
Lemma jr_uint64 E : jreads E (JScalar B_uint64) VInt json_uint64.
Proof.
  apply jr_scalar; [discriminate|]. intros j v. unfold json_uint64. split.
  - intros (x & H & Q). cbn [scalar_from_text] in Q. unfold vint in Q. apply bind_Ok in Q as (z & Q & W). exists z. split; [congruence|eauto].
  - intros (a & -> & x & H & Q). exists x. split; [exact H|]. cbn [scalar_from_text]. unfold vint. now rewrite Q.
Qed.
Lemma jr_all {A} E t (inj : A -> val) R : jreads E t inj R -> forall js vs, Forall unique js -> treads_all E t js vs <-> exists l, vs = map inj l /\ Forall2 R js l.
Proof.
  intros H js. induction js as [|j js IH]; intros vs U.
  - split; [intros T; inversion T; subst; exists []; split; [reflexivity|constructor]|]. intros (l & -> & F). inversion F; subst. constructor.
  - apply Forall_cons_iff in U as [U1 U2]. split.
    + intros T. inversion T; subst. match goal with H : treads _ _ _ _ _ |- _ => apply H in H || idtac end.
      match goal with T1 : treads E t _ j _, T2 : treads_all E t js _ |- _ => apply (H j _ U1) in T1 as (x & -> & Rx); apply (IH _ U2) in T2 as (l & -> & F) end.
      exists (x :: l). split; [reflexivity|now constructor].
    + intros (l & -> & F). inversion F; subst. cbn [map]. constructor; [apply (H j _ U1); eauto|apply (IH _ U2); eauto].
Qed.
Lemma jr_vec {A} E t (inj : A -> val) R : jreads E t inj R -> jreads E (JVec t) (fun l => VList (map inj l)) (json_list R).
Proof.
  intros H j v U. unfold json_list. change (jdefault (JVec t)) with (VList []). split.
  - intros T. inversion T; subst. inversion U; subst. match goal with T2 : treads_all _ _ _ _ |- _ => apply (jr_all E t inj R H) in T2 as (l & -> & F); [|assumption] end.
    exists l. split; [reflexivity|eauto].
  - intros (l & -> & js & -> & F). inversion U; subst. change (VList (map inj l)) with (VList ([] ++ map inj l)). constructor. apply (jr_all E t inj R H); [assumption|eauto].
Qed.
Lemma jr_maybe {A} E t (inj : A -> val) R : jreads E t inj R -> jreads E (JMaybe t) inj R.
Proof.
  intros H j v U. rewrite <- (H j v U). change (jdefault (JMaybe t)) with (jdefault t). split; [intros T; now inversion T|now constructor].
Qed.
Lemma jr_ext E : jreads E extensions_jty (fun l => VList (map val_of_extension l)) json_extensions.
Proof.
  intros j v U. unfold json_extensions, extensions_jty. change (jdefault (JVec ?t)) with (VList []). split.
  - intros T. inversion T; subst. match goal with T2 : treads_all _ _ _ _ |- _ => inversion T2; subst end.
    + exists []. auto.
    + match goal with T3 : treads _ (JPair _ _) _ _ _ |- _ => inversion T3 end.
  - intros (l & -> & -> & ->). change (VList (map val_of_extension [])) with (VList ([] ++ [])). constructor. constructor.
Qed.

(** Fields of a struct, as nested pairs. *)
Definition freads {A} (E : float_lib) (fs : list (bytes * jty)) (inj : A -> list val) (R : list (bytes * jv) -> A -> Prop) : Prop :=
  forall ms l, Forall (fun m => unique (snd m)) ms -> Forall2 (field_read E ms) fs l <-> exists x, l = inj x /\ R ms x.
Lemma fr_nil E : freads E [] (fun _ : unit => []) (fun _ _ => True).
Proof. intros ms l _. split; [intros F; inversion F; subst; exists tt; auto|intros (x & -> & _); constructor]. Qed.
Lemma fr_cons {A B} E k t fs (inj : A -> val) R (dflt : A) (injs : B -> list val) Rs : jreads E t inj R -> jdefault t = inj dflt -> freads E fs injs Rs ->
  freads E ((str k, t) :: fs) (fun p => inj (fst p) :: injs (snd p)) (fun ms p => has ms k dflt R (fst p) /\ Rs ms (snd p)).
Proof.
  intros H D Hs ms l U.
  assert (Um : forall j, member (str k) ms = Some j -> unique j).
  { intros j M. rewrite Forall_forall in U. clear - M U. induction ms as [|[k' j'] ms IH]; [discriminate|]. cbn [member] in M. destruct (beq (str k) k').
    - assert (j' = j) by congruence. subst. apply (U (k', j)). now left.
    - apply IH; [intros x Hx; apply U; now right|exact M]. }
  split.
  - intros F. inversion F as [|f v fs' l' F1 F2]; subst. apply (Hs ms l' U) in F2 as (y & -> & Ry). unfold field_read, taken in F1. cbn [fst snd] in F1. unfold has.
    destruct (member (str k) ms) as [j|] eqn:M.
    + apply (H j v (Um j eq_refl)) in F1 as (x & -> & Rx). exists (x, y). cbn [fst snd]. auto.
    + rewrite D in F1. exists (dflt, y). cbn [fst snd]. subst v. auto.
  - intros ([x y] & -> & Hx & Hy). cbn [fst snd] in *. constructor; [|apply (Hs ms _ U); eauto]. unfold field_read, taken. cbn [fst snd]. unfold has in Hx.
    destruct (member (str k) ms) as [j|] eqn:M; [apply (H j _ (Um j eq_refl)); eauto|]. subst x. now symmetry.
Qed.
Lemma jr_struct {A X} E n fs (injs : A -> list val) Rs (f : X -> A) (g : A -> X) inj' R' :
  freads E fs injs Rs -> NoDup (map fst fs) -> (forall a, f (g a) = a) -> (forall x, inj' x = VList (injs (f x))) ->
  (forall j x, R' j x <-> exists ms, j = JObj ms /\ Rs ms (f x)) -> jreads E (JStruct n fs) inj' R'.
Proof.
  intros H N FG I O j v U. split.
  - intros T. assert (exists ms, j = JObj ms) as [ms ->] by (inversion T; eauto). inversion U; subst. apply (struct_reads E n fs ms v N) in T as (l & -> & F); [|assumption].
    apply (H ms l) in F as (a & -> & Ra); [|assumption]. exists (g a). rewrite I, FG. split; [reflexivity|]. apply O. exists ms. rewrite FG. auto.
  - intros (x & -> & Rx). apply O in Rx as (ms & -> & Rx). inversion U; subst. apply (struct_reads E n fs ms _ N); [assumption|]. rewrite I. eexists. split; [reflexivity|].
    apply (H ms); [assumption|]. eauto.
Qed.

(** ** The types of a definition *)
Ltac nodup := repeat (apply NoDup_cons; [cbv; intuition discriminate|]); apply NoDup_nil.
Lemma jr_type E : jreads E type_def_jty val_of_type json_type.
Proof.
  eapply (jr_struct _ _ _ _ _ (fun t => (new_type_name t, (td_type t, tt))) (fun p => TypeDef (fst p) (fst (snd p))));
    [eapply (fr_cons E _ _ _ _ _ [] _ _ (jr_str E) eq_refl); eapply (fr_cons E _ _ _ _ _ [] _ _ (jr_str E) eq_refl); apply fr_nil|nodup|now intros (a & b & [])|reflexivity|].
  intros j x. unfold json_type, json_obj. cbn [fst snd]. split; intros (ms & H); exists ms; tauto.
Qed.
Lemma jr_field E : jreads E field_def_jty val_of_field json_field.
Proof.
  eapply (jr_struct _ _ _ _ _ (fun t => (fd_name t, (fd_type t, tt))) (fun p => FieldDef (fst p) (fst (snd p))));
    [eapply (fr_cons E _ _ _ _ _ [] _ _ (jr_str E) eq_refl); eapply (fr_cons E _ _ _ _ _ [] _ _ (jr_str E) eq_refl); apply fr_nil|nodup|now intros (a & b & [])|reflexivity|].
  intros j x. unfold json_field, json_obj. cbn [fst snd]. split; intros (ms & H); exists ms; tauto.
Qed.
Lemma jr_struct_def E : jreads E struct_def_jty val_of_struct json_struct.
Proof.
  eapply (jr_struct _ _ _ _ _ (fun t => (sd_name t, (sd_base t, (sd_fields t, tt)))) (fun p => StructDef (fst p) (fst (snd p)) (fst (snd (snd p)))));
    [eapply (fr_cons E _ _ _ _ _ [] _ _ (jr_str E) eq_refl); eapply (fr_cons E _ _ _ _ _ [] _ _ (jr_str E) eq_refl);
     eapply (fr_cons E _ _ _ _ _ [] _ _ (jr_vec _ _ _ _ (jr_field E)) eq_refl); apply fr_nil|nodup|now intros (a & b & c & [])|reflexivity|].
  intros j x. unfold json_struct, json_obj. cbn [fst snd]. split; intros (ms & H); exists ms; tauto.
Qed.
Lemma jr_action E : jreads E action_def_jty val_of_action json_action.
Proof.
  eapply (jr_struct _ _ _ _ _ (fun t => (ac_name t, (ac_type t, (ac_ricardian t, tt)))) (fun p => ActionDef (fst p) (fst (snd p)) (fst (snd (snd p)))));
    [eapply (fr_cons E _ _ _ _ _ 0 _ _ (jr_name E) eq_refl); eapply (fr_cons E _ _ _ _ _ [] _ _ (jr_str E) eq_refl);
     eapply (fr_cons E _ _ _ _ _ [] _ _ (jr_str E) eq_refl); apply fr_nil|nodup|now intros (a & b & c & [])|reflexivity|].
  intros j x. unfold json_action, json_obj. cbn [fst snd]. split; intros (ms & H); exists ms; tauto.
Qed.
Lemma jr_table E : jreads E table_def_jty val_of_table json_table.
Proof.
  eapply (jr_struct _ _ _ _ _ (fun t => (tb_name t, (tb_index_type t, (tb_key_names t, (tb_key_types t, (tb_type t, tt))))))
     (fun p => TableDef (fst p) (fst (snd p)) (fst (snd (snd p))) (fst (snd (snd (snd p)))) (fst (snd (snd (snd (snd p)))))));
    [eapply (fr_cons E _ _ _ _ _ 0 _ _ (jr_name E) eq_refl); eapply (fr_cons E _ _ _ _ _ [] _ _ (jr_str E) eq_refl);
     eapply (fr_cons E _ _ _ _ _ [] _ _ (jr_vec _ _ _ _ (jr_str E)) eq_refl); eapply (fr_cons E _ _ _ _ _ [] _ _ (jr_vec _ _ _ _ (jr_str E)) eq_refl);
     eapply (fr_cons E _ _ _ _ _ [] _ _ (jr_str E) eq_refl); apply fr_nil|nodup|now intros (a & b & c & d & e & [])|reflexivity|].
  intros j x. unfold json_table, json_obj. cbn [fst snd]. split; intros (ms & H); exists ms; tauto.
Qed.
Lemma jr_clause E : jreads E clause_pair_jty val_of_clause json_clause.
Proof.
  eapply (jr_struct _ _ _ _ _ (fun t => (cl_id t, (cl_body t, tt))) (fun p => ClausePair (fst p) (fst (snd p))));
    [eapply (fr_cons E _ _ _ _ _ [] _ _ (jr_str E) eq_refl); eapply (fr_cons E _ _ _ _ _ [] _ _ (jr_str E) eq_refl); apply fr_nil|nodup|now intros (a & b & [])|reflexivity|].
  intros j x. unfold json_clause, json_obj. cbn [fst snd]. split; intros (ms & H); exists ms; tauto.
Qed.
Lemma jr_error E : jreads E error_message_jty val_of_error json_error.
Proof.
  eapply (jr_struct _ _ _ _ _ (fun t => (em_code t, (em_msg t, tt))) (fun p => ErrorMessage (fst p) (fst (snd p))));
    [eapply (fr_cons E _ _ _ _ _ 0 _ _ (jr_uint64 E) eq_refl); eapply (fr_cons E _ _ _ _ _ [] _ _ (jr_str E) eq_refl); apply fr_nil|nodup|now intros (a & b & [])|reflexivity|].
  intros j x. unfold json_error, json_obj. cbn [fst snd]. split; intros (ms & H); exists ms; tauto.
Qed.
Lemma jr_variant E : jreads E variant_def_jty val_of_variant json_variant.
Proof.
  eapply (jr_struct _ _ _ _ _ (fun t => (vd_name t, (vd_types t, tt))) (fun p => VariantDef (fst p) (fst (snd p))));
    [eapply (fr_cons E _ _ _ _ _ [] _ _ (jr_str E) eq_refl); eapply (fr_cons E _ _ _ _ _ [] _ _ (jr_vec _ _ _ _ (jr_str E)) eq_refl); apply fr_nil|nodup|now intros (a & b & [])|reflexivity|].
  intros j x. unfold json_variant, json_obj. cbn [fst snd]. split; intros (ms & H); exists ms; tauto.
Qed.
Lemma jr_abi E : jreads E abi_def_jty val_of_abi json_abi.
Proof.
  eapply (jr_struct _ _ _ _ _ abi_tuple (fun '(a, (b, (c, (d, (e, (f, (g, (h, (i, _))))))))) => AbiDef a b c d e f g h i));
    [eapply (fr_cons E _ _ _ _ _ [] _ _ (jr_str E) eq_refl); eapply (fr_cons E _ _ _ _ _ [] _ _ (jr_vec _ _ _ _ (jr_type E)) eq_refl);
     eapply (fr_cons E _ _ _ _ _ [] _ _ (jr_vec _ _ _ _ (jr_struct_def E)) eq_refl); eapply (fr_cons E _ _ _ _ _ [] _ _ (jr_vec _ _ _ _ (jr_action E)) eq_refl);
     eapply (fr_cons E _ _ _ _ _ [] _ _ (jr_vec _ _ _ _ (jr_table E)) eq_refl); eapply (fr_cons E _ _ _ _ _ [] _ _ (jr_vec _ _ _ _ (jr_clause E)) eq_refl);
     eapply (fr_cons E _ _ _ _ _ [] _ _ (jr_vec _ _ _ _ (jr_error E)) eq_refl); eapply (fr_cons E _ _ _ _ _ [] _ _ (jr_ext E) eq_refl);
     eapply (fr_cons E _ _ _ _ _ [] _ _ (jr_maybe _ _ _ _ (jr_vec _ _ _ _ (jr_variant E))) eq_refl); apply fr_nil
    |nodup|now intros (a & b & c & d & e & f & g & h & i & [])|reflexivity|].
  intros j x. unfold json_abi, json_obj, abi_tuple. cbn [fst snd]. split; intros (ms & H); exists ms; tauto.
Qed.

(** ** Whatever is read has the shape of its type, and reading is defined *)
(** Types made of strings, names and uint64 (and lists of pairs, which are never read). *)
Fixpoint basic (t : jty) : bool :=
  match t with
  | JScalar B_string | JScalar B_name | JScalar B_uint64 => true
  | JVec t => match t with JPair _ _ => true | _ => basic t end
  | JMaybe t => basic t
  | JStruct _ fs => forallb (fun f => basic (snd f)) fs
  | _ => false
  end.
Fixpoint shp (t : jty) (v : val) {struct t} : bool :=
  match t, v with
  | JScalar B_string, VStr _ => true
  | JScalar B_name, VInt _ | JScalar B_uint64, VInt _ => true
  | JVec t', VList l => forallb (shp t') l
  | JStruct _ fs, VList l => forallb2 (map (fun f => shp (snd f)) fs) l
  | JMaybe t', _ => shp t' v
  | _, _ => false
  end.

Lemma shp_default : forall t, basic t = true -> shp t (jdefault t) = true.
Proof.
  unfold jdefault. induction t as [b|t IH|t IH|tys IH|nm fs IH|a b IHa IHb|t IH| |t IH|names|k] using jty_ind'; intros B; try discriminate B; cbn [basic erase default_of shp] in *; auto.
  - destruct b; try discriminate B; reflexivity.
  - rewrite map_map. induction IH as [|f fs H _ IHf]; [reflexivity|]. cbn [forallb map forallb2] in *. apply andb_true_iff in B as [B1 B2]. now rewrite (H B1), (IHf B2).
Qed.
Lemma treads_shp E :
  (forall t cur j v, treads E t cur j v -> basic t = true -> shp t cur = true -> shp t v = true) /\
  (forall t js vs, treads_all E t js vs -> basic (JVec t) = true -> forallb (shp t) vs = true) /\
  (forall fs l ms l', treads_members E fs l ms l' -> forallb (fun f => basic (snd f)) fs = true -> forallb2 (map (fun f => shp (snd f)) fs) l = true -> forallb2 (map (fun f => shp (snd f)) fs) l' = true).
Proof.
  apply treads_mutind; intros; try discriminate; auto.
  - (* scalar *) assert (B : b = B_string \/ b = B_name \/ b = B_uint64) by (destruct b; auto; discriminate). destruct B as [->|[->| ->]]; cbn [scalar_from_text shp] in *.
    + assert (v = VStr x) by congruence. now subst.
    + assert (v = VInt (name_from_json_string x)) by congruence. now subst.
    + unfold vint in *. match goal with H : bind _ _ = Ok v |- _ => apply bind_Ok in H as (z & _ & H); assert (v = VInt z) by congruence; now subst end.
  - (* vec *) change (forallb (shp t) (l ++ vs) = true). rewrite forallb_app. apply andb_true_iff. split; [exact H2|]. exact (H0 H1).
  - (* cons *) cbn [forallb]. apply andb_true_iff. split; [|now apply H2].
    assert (P : (exists a b, t = JPair a b) \/ basic t = true) by (cbn [basic] in H3; destruct t; eauto).
    destruct P as [(a & b & ->)|P]; [inversion H|]. apply H0; [exact P|]. now apply shp_default.
  - (* known *) apply H4; [assumption|]. destruct H as [Hf _].
    assert (Hp : nth_error (map (fun f : bytes * jty => shp (snd f)) fs) i = Some (shp t)) by (rewrite nth_error_map, Hf; reflexivity).
    eapply shaped_set; eauto. apply H2.
    + rewrite forallb_forall in H5. apply nth_error_In in Hf. exact (H5 _ Hf).
    + destruct (shaped_nth _ _ _ _ H6 Hp) as (x & Hx & Sx). assert (x = cur) by congruence. now subst.
Qed.
Definition shapes {A} (t : jty) (inj : A -> val) : Prop := forall v, shp t v = true -> exists x, v = inj x.
Lemma sh_str : shapes string_jty VStr.
Proof. intros v H. destruct v; try discriminate H. eauto. Qed.
Lemma sh_int b : b = B_name \/ b = B_uint64 -> shapes (JScalar b) VInt.
Proof. intros Hb v H. destruct Hb as [->| ->]; (destruct v; try discriminate H; eauto). Qed.
Lemma sh_vec {A} t (inj : A -> val) : shapes t inj -> shapes (JVec t) (fun l => VList (map inj l)).
Proof.
  intros S v H. destruct v as [| | | |l| |]; try discriminate H. change (forallb (shp t) l = true) in H.
  assert (K : exists xs, l = map inj xs); [|destruct K as [xs ->]; eauto]. induction l as [|v l IH]; [exists []; reflexivity|].
  cbn [forallb] in H. apply andb_true_iff in H as [H1 H2]. destruct (S v H1) as [x ->]. destruct (IH H2) as [xs ->]. exists (x :: xs). reflexivity.
Qed.
Lemma sh_ext v : shp extensions_jty v = true -> v = VList [].
Proof. intros H. destruct v as [| | | |[|v l]| |]; try discriminate H. reflexivity. Qed.
Definition fshapes {A} (fs : list (bytes * jty)) (inj : A -> list val) : Prop := forall l, forallb2 (map (fun f => shp (snd f)) fs) l = true -> exists x, l = inj x.
Lemma sf_nil : fshapes [] (fun _ : unit => []).
Proof. intros [|v l] H; [exists tt; reflexivity|discriminate H]. Qed.
Lemma sf_cons {A B} k t fs (inj : A -> val) (injs : B -> list val) : shapes t inj -> fshapes fs injs -> fshapes ((k, t) :: fs) (fun p => inj (fst p) :: injs (snd p)).
Proof.
  intros S F [|v l] H; [discriminate H|]. cbn [map forallb2 snd] in H. apply andb_true_iff in H as [H1 H2]. destruct (S v H1) as [x ->]. destruct (F l H2) as [y ->]. exists (x, y). reflexivity.
Qed.
Lemma sh_struct {A X} n fs (injs : A -> list val) (g : A -> X) inj' : fshapes fs injs -> (forall a, inj' (g a) = VList (injs a)) -> shapes (JStruct n fs) inj'.
Proof. intros F I v H. destruct v as [| | | |l| |]; try discriminate H. destruct (F l H) as [a ->]. exists (g a). now rewrite I. Qed.
Lemma sh_maybe {A} t (inj : A -> val) : shapes t inj -> shapes (JMaybe t) inj.
Proof. intros S v H. apply S. destruct v; exact H. Qed.
Lemma sh_type : shapes type_def_jty val_of_type.
Proof. eapply (sh_struct _ _ _ (fun p => TypeDef (fst p) (fst (snd p)))); [eapply sf_cons; [apply sh_str|eapply sf_cons; [apply sh_str|apply sf_nil]]|now intros (a & b & [])]. Qed.
Lemma sh_field : shapes field_def_jty val_of_field.
Proof. eapply (sh_struct _ _ _ (fun p => FieldDef (fst p) (fst (snd p)))); [eapply sf_cons; [apply sh_str|eapply sf_cons; [apply sh_str|apply sf_nil]]|now intros (a & b & [])]. Qed.
Lemma sh_struct_def : shapes struct_def_jty val_of_struct.
Proof.
  eapply (sh_struct _ _ _ (fun p => StructDef (fst p) (fst (snd p)) (fst (snd (snd p)))));
    [eapply sf_cons; [apply sh_str|eapply sf_cons; [apply sh_str|eapply sf_cons; [apply sh_vec, sh_field|apply sf_nil]]]|now intros (a & b & c & [])].
Qed.
Lemma sh_action : shapes action_def_jty val_of_action.
Proof.
  eapply (sh_struct _ _ _ (fun p => ActionDef (fst p) (fst (snd p)) (fst (snd (snd p)))));
    [eapply sf_cons; [apply sh_int; auto|eapply sf_cons; [apply sh_str|eapply sf_cons; [apply sh_str|apply sf_nil]]]|now intros (a & b & c & [])].
Qed.
Lemma sh_table : shapes table_def_jty val_of_table.
Proof.
  eapply (sh_struct _ _ _ (fun p => TableDef (fst p) (fst (snd p)) (fst (snd (snd p))) (fst (snd (snd (snd p)))) (fst (snd (snd (snd (snd p)))))));
    [eapply sf_cons; [apply sh_int; auto|eapply sf_cons; [apply sh_str|eapply sf_cons; [apply sh_vec, sh_str|eapply sf_cons; [apply sh_vec, sh_str|eapply sf_cons; [apply sh_str|apply sf_nil]]]]]
    |now intros (a & b & c & d & e & [])].
Qed.
Lemma sh_clause : shapes clause_pair_jty val_of_clause.
Proof. eapply (sh_struct _ _ _ (fun p => ClausePair (fst p) (fst (snd p)))); [eapply sf_cons; [apply sh_str|eapply sf_cons; [apply sh_str|apply sf_nil]]|now intros (a & b & [])]. Qed.
Lemma sh_error : shapes error_message_jty val_of_error.
Proof. eapply (sh_struct _ _ _ (fun p => ErrorMessage (fst p) (fst (snd p)))); [eapply sf_cons; [apply sh_int; auto|eapply sf_cons; [apply sh_str|apply sf_nil]]|now intros (a & b & [])]. Qed.
Lemma sh_variant : shapes variant_def_jty val_of_variant.
Proof. eapply (sh_struct _ _ _ (fun p => VariantDef (fst p) (fst (snd p)))); [eapply sf_cons; [apply sh_str|eapply sf_cons; [apply sh_vec, sh_str|apply sf_nil]]|now intros (a & b & [])]. Qed.
Lemma sh_no_ext : shapes extensions_jty (fun _ : unit => VList []).
Proof. intros v H. exists tt. now apply sh_ext. Qed.
Lemma sh_abi v : shp abi_def_jty v = true -> exists d, v = val_of_abi d /\ ad_extensions d = [].
Proof.
  intros H. assert (S : shapes abi_def_jty (fun p : { d : abi_def | ad_extensions d = [] } => val_of_abi (proj1_sig p))).
  { eapply (sh_struct _ _ _ (fun '(a, (b, (c, (d, (e, (f, (g, (h, (i, _))))))))) => exist _ (AbiDef a b c d e f g [] i) eq_refl));
      [eapply sf_cons; [apply sh_str|]; eapply sf_cons; [apply sh_vec, sh_type|]; eapply sf_cons; [apply sh_vec, sh_struct_def|]; eapply sf_cons; [apply sh_vec, sh_action|];
       eapply sf_cons; [apply sh_vec, sh_table|]; eapply sf_cons; [apply sh_vec, sh_clause|]; eapply sf_cons; [apply sh_vec, sh_error|]; eapply sf_cons; [apply sh_no_ext|];
       eapply sf_cons; [apply sh_maybe, sh_vec, sh_variant|apply sf_nil]|now intros (a & b & c & d & e & f & g & h & i & [])]. }
  destruct (S v H) as [[d Hd] ->]. eauto.
Qed.
Lemma oall_id {A} (inj : A -> val) back l : (forall x, back (inj x) = Some x) -> list_of back (VList (map inj l)) = Some l.
Proof. intros H. cbn [list_of]. rewrite (oall_map inj back (fun x => x)), map_id; [reflexivity|]. apply Forall_forall. auto. Qed.
Lemma abi_back d : ad_extensions d = [] -> abi_of_val (val_of_abi d) = Some d.
Proof.
  destruct d as [a b c e f g h i j]. cbn [ad_extensions]. intros ->. unfold val_of_abi.
  cbn [ad_version ad_types ad_structs ad_actions ad_tables ad_clauses ad_errors ad_extensions ad_variants map abi_of_val].
  assert (Hs : forall l, list_of str_of (strs l) = Some l) by (intros l; apply (oall_id VStr); reflexivity).
  rewrite (oall_id val_of_type type_of) by (intros []; reflexivity).
  rewrite (oall_id val_of_struct struct_of) by (intros [x1 x2 l]; unfold val_of_struct; cbn [sd_name sd_base sd_fields struct_of]; now rewrite (oall_id val_of_field field_of) by (intros []; reflexivity)).
  rewrite (oall_id val_of_action action_of) by (intros []; reflexivity).
  rewrite (oall_id val_of_table table_of) by (intros [x1 x2 l m x3]; unfold val_of_table; cbn [tb_name tb_index_type tb_key_names tb_key_types tb_type table_of]; now rewrite !Hs).
  rewrite (oall_id val_of_clause clause_of) by (intros []; reflexivity).
  rewrite (oall_id val_of_error error_of) by (intros []; reflexivity).
  rewrite (oall_id val_of_variant variant_of) by (intros [x1 l]; unfold val_of_variant; cbn [vd_name vd_types variant_of]; now rewrite Hs).
  reflexivity.
Qed.

(** The reader does not use the floating point library. *)
Lemma read_items_ext f g : (forall s, f s = g s) -> forall fuel acc s, read_items f fuel acc s = read_items g fuel acc s.
Proof.
  intros H. induction fuel as [|fuel IH]; intros acc s; [reflexivity|]. cbn [read_items]. destruct (peek_token s) as [[[]|]|e|w]; cbn [bind]; try reflexivity;
    rewrite H; destruct (g s) as [[v s1]|e|w]; cbn [bind]; auto.
Qed.
Lemma find_named_map {A B} k (f : A -> B) (l : list (bytes * A)) : forall i, find_named k (map (fun p => (fst p, f (snd p))) l) i = option_map (fun p => (fst p, f (snd p))) (find_named k l i).
Proof. induction l as [|[n a] l IH]; intros i; cbn [map find_named fst snd]; [reflexivity|]. destruct (beq k n); [reflexivity|apply IH]. Qed.
Lemma read_members_ext (fs : list (bytes * jty)) (F G : jty -> val -> jstream -> res (val * jstream)) :
  Forall (fun f => forall cur s, F (snd f) cur s = G (snd f) cur s) fs ->
  forall fuel l s, read_members (map (fun f => (fst f, F (snd f))) fs) fuel l s = read_members (map (fun f => (fst f, G (snd f))) fs) fuel l s.
Proof.
  intros H. induction fuel as [|fuel IH]; intros l s; [reflexivity|]. cbn [read_members]. destruct (peek_token s) as [t|e|w]; cbn [bind]; [|reflexivity|reflexivity].
  assert (K : (let* (k, s0) := get_key s in match find_named k (map (fun f => (fst f, F (snd f))) fs) 0 with
       | Some (i, f) => match nthz l i with Some cur => let* (v, s1) := f cur s0 in read_members (map (fun f => (fst f, F (snd f))) fs) fuel (set_nth l (Z.to_nat i) v) s1 | None => ill end
       | None => let* s1 := from_json_skip_value s0 in read_members (map (fun f => (fst f, F (snd f))) fs) fuel l s1 end) =
    (let* (k, s0) := get_key s in match find_named k (map (fun f => (fst f, G (snd f))) fs) 0 with
       | Some (i, f) => match nthz l i with Some cur => let* (v, s1) := f cur s0 in read_members (map (fun f => (fst f, G (snd f))) fs) fuel (set_nth l (Z.to_nat i) v) s1 | None => ill end
       | None => let* s1 := from_json_skip_value s0 in read_members (map (fun f => (fst f, G (snd f))) fs) fuel l s1 end)).
  { destruct (get_key s) as [[k s0]|e|w]; cbn [bind]; [|reflexivity|reflexivity]. rewrite (find_named_map k F fs 0), (find_named_map k G fs 0).
    destruct (find_named k fs 0) as [[i t0]|] eqn:Fn; cbn [option_map fst snd].
    - destruct (nthz l i) as [cur|]; [|reflexivity]. apply find_named_In in Fn. cbn [snd] in Fn. rewrite Forall_forall in H. specialize (H _ Fn cur s0). cbn [snd] in H. rewrite H. destruct (G t0 cur s0) as [[v s1]|e|w]; cbn [bind]; [apply IH|reflexivity|reflexivity].
    - destruct (from_json_skip_value s0) as [s1|e|w]; cbn [bind]; [apply IH|reflexivity|reflexivity]. }
  destruct t as [[]|]; try exact K. reflexivity.
Qed.
Lemma from_json_indep E E' : forall t cur s, basic t = true -> from_json E t cur s = from_json E' t cur s.
Proof.
  induction t as [b|t IH|t IH|tys IH|nm fs IH|a b IHa IHb|t IH| |t IH|names|k] using jty_ind'; intros cur s B; try discriminate B.
  - destruct b; try discriminate B; reflexivity.
  - cbn [from_json]. destruct cur; try reflexivity. destruct (get_start_array s) as [s1|e|w]; cbn [bind]; [|reflexivity|reflexivity].
    rewrite (read_items_ext (from_json E t (jdefault t)) (from_json E' t (jdefault t))); [reflexivity|]. intros s2. cbn [basic] in B.
    assert (P : (exists a b, t = JPair a b) \/ basic t = true) by (destruct t; eauto). destruct P as [(a & b & ->)|P]; [reflexivity|auto].
  - cbn [from_json]. destruct cur; try reflexivity. destruct (get_start_object s) as [s1|e|w]; cbn [bind]; [|reflexivity|reflexivity].
    rewrite (read_members_ext fs (from_json E) (from_json E')); [reflexivity|]. cbn [basic] in B. rewrite forallb_forall in B. rewrite Forall_forall in *. auto.
  - cbn [from_json basic] in *. auto.
Qed.
