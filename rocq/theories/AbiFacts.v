(** * AbiFacts: the loading algorithm against the meaning of definitions *)
From Verif Require Import Base Abi AbiSpec.

(** ** The map *)
Lemma afind_ainsert k d m k' :
  afind k m = None -> afind k' (ainsert k d m) = if beq k' k then Some d else afind k' m.
Proof.
  induction m as [|[k0 d0] m IH]; cbn; intros H.
  - reflexivity.
  - destruct (beq k k0) eqn:Ek; [discriminate|].
    destruct (lex_ltb k k0); cbn.
    + reflexivity.
    + destruct (beq k' k0) eqn:E0.
      * destruct (beq k' k) eqn:E1; auto.
        apply beq_eq in E0, E1. subst. rewrite beq_refl in Ek. discriminate.
      * apply IH; auto.
Qed.

Lemma afind_try_emplace k d m k' :
  afind k' (fst (try_emplace k d m)) =
  match afind k m with
  | Some _ => afind k' m
  | None => if beq k' k then Some d else afind k' m
  end.
Proof.
  unfold try_emplace. destruct (afind k m) eqn:E; cbn; auto. now apply afind_ainsert.
Qed.

Lemma afind_aset k d m k' :
  afind k' (aset k d m) =
  match afind k m with
  | Some _ => if beq k' k then Some d else afind k' m
  | None => afind k' m
  end.
Proof.
  induction m as [|[k0 d0] m IH]; cbn; auto.
  destruct (beq k k0) eqn:Ek; cbn.
  - apply beq_eq in Ek. subst. destruct (beq k' k0); auto.
  - destruct (beq k' k0) eqn:E0.
    + apply beq_eq in E0. subst.
      destruct (afind k m); auto. destruct (beq k0 k) eqn:E1; auto.
      apply beq_eq in E1. subst. rewrite beq_refl in Ek. discriminate.
    + exact IH.
Qed.

Lemma afind_In k d m : afind k m = Some d -> In (k, d) m.
Proof.
  induction m as [|[k0 d0] m IH]; cbn; [discriminate|].
  destruct (beq k k0) eqn:Ek; intros H.
  - apply beq_eq in Ek. left. congruence.
  - right. auto.
Qed.
Lemma afind_None k m : afind k m = None <-> ~ In k (map fst m).
Proof.
  induction m as [|[k0 d0] m IH]; cbn; [tauto|].
  destruct (beq k k0) eqn:Ek.
  - apply beq_eq in Ek. subst. split; [discriminate|]. intros H. exfalso. auto.
  - apply beq_neq in Ek. rewrite IH. split; [intros H [->|?]; auto | intros H ?; auto].
Qed.

(** ** Suffixes *)
Lemma ends_with_spec s x : ends_with s x = true <-> exists b, s = b ++ x.
Proof.
  unfold ends_with. rewrite andb_true_iff, beq_eq. split.
  - intros [_ H]. exists (firstn (List.length s - List.length x) s).
    transitivity (firstn (List.length s - List.length x) s ++ skipn (List.length s - List.length x) s).
    + symmetry. apply firstn_skipn.
    + now rewrite H.
  - intros [b ->]. rewrite app_length. split; [lia|].
    replace (List.length b + List.length x - List.length x)%nat with (List.length b) by lia.
    rewrite skipn_app, skipn_all, Nat.sub_diag. reflexivity.
Qed.
Lemma drop_last_app b x : drop_last (List.length x) (b ++ x) = b.
Proof.
  unfold drop_last. rewrite app_length.
  replace (List.length b + List.length x - List.length x)%nat with (List.length b) by lia.
  rewrite firstn_app, firstn_all, Nat.sub_diag. cbn. apply app_nil_r.
Qed.
Lemma ends_with_app b x : ends_with (b ++ x) x = true.
Proof. apply ends_with_spec. eauto. Qed.

Lemma last_app_neq (b c : bytes) x y l : x <> y -> b ++ [x] = c ++ l ++ [y] -> False.
Proof.
  intros N H. rewrite app_assoc in H. apply app_inj_tail in H. destruct H; auto.
Qed.
Lemma suffix_qa b c : b ++ str "?" = c ++ str "[]" -> False.
Proof. intros H. change (b ++ [63] = c ++ [91] ++ [93]) in H. eapply last_app_neq; [|exact H]. lia. Qed.
Lemma suffix_qd b c : b ++ str "?" = c ++ str "$" -> False.
Proof. intros H. change (b ++ [63] = c ++ [] ++ [36]) in H. eapply last_app_neq; [|exact H]. lia. Qed.
Lemma suffix_da b c : b ++ str "$" = c ++ str "[]" -> False.
Proof. intros H. change (b ++ [36] = c ++ [91] ++ [93]) in H. eapply last_app_neq; [|exact H]. lia. Qed.

Lemma ends_with_false s x : (forall b, s = b ++ x -> False) -> ends_with s x = false.
Proof.
  intros H. destruct (ends_with s x) eqn:E; auto. apply ends_with_spec in E. destruct E as [b ->].
  exfalso. eauto.
Qed.

(** ** Meaning *)
Lemma refers_mono a n t p : refers_to a n t p -> forall m, (n <= m)%nat -> refers_to a m t p.
Proof.
  induction 1; intros m Hm; (destruct m as [|m]; [lia|]).
  - eapply refers_declared; eauto.
  - eapply refers_alias; eauto. apply IHrefers_to. lia.
  - eapply refers_optional; eauto. apply IHrefers_to. lia.
  - eapply refers_array; eauto. apply IHrefers_to. lia.
  - eapply refers_extension; eauto. apply IHrefers_to. lia.
Qed.
Lemma members_mono a n ms fs : members_refer a n ms fs -> forall m, (n <= m)%nat -> members_refer a m ms fs.
Proof.
  intros H m Hm. induction H; constructor; auto. destruct H. split; auto. eapply refers_mono; eauto.
Qed.
Lemma struct_fields_mono a n t fs :
  struct_fields a n t fs -> forall m, (n <= m)%nat -> struct_fields a m t fs.
Proof.
  induction 1; intros m Hm; (destruct m as [|m]; [lia|]).
  - eapply fields_root; eauto. eapply members_mono; eauto. lia.
  - eapply fields_derived; eauto.
    + eapply refers_mono; eauto; lia.
    + apply IHstruct_fields. lia.
    + eapply members_mono; eauto. lia.
Qed.

Definition functional (a : abi_def) : Prop :=
  forall n d d', declares a n d -> declares a n d' -> d = d'.

Lemma denotes_fun a : functional a ->
  forall n t p, refers_to a n t p -> forall n' p', refers_to a n' t p' -> p = p'.
Proof.
  intros F. induction 1; intros n' p' H'; inversion H'; subst; auto;
    try (match goal with D : ~ declared a ?t, E : declares a ?t _ |- _ =>
           exfalso; apply D; eexists; exact E end);
    try (exfalso; eauto using suffix_qa, suffix_qd, suffix_da; fail).
  - exfalso. pose proof (F _ _ _ H H1). subst. eapply H0; eauto.
  - exfalso. pose proof (F _ _ _ H H2). subst. eapply H3; eauto.
  - pose proof (F _ _ _ H H2) as E. inversion E; subst. eauto.
Qed.
Lemma members_fun a n ms fs : functional a -> members_refer a n ms fs ->
  forall n' fs', members_refer a n' ms fs' -> fs = fs'.
Proof.
  intros F. induction 1 as [|m f ms fs [Hn Hr] Hrest IH]; intros n' fs' H'; inversion H'; subst; auto.
  destruct H1 as [Hn' Hr']. destruct f as [fn ft], y as [gn gt]; cbn in *. subst.
  f_equal; [f_equal|]; eauto using denotes_fun.
Qed.
Lemma struct_fields_fun a : functional a -> forall n t fs, struct_fields a n t fs ->
  forall n' fs', struct_fields a n' t fs' -> fs = fs'.
Proof.
  intros F. induction 1 as [n name fields own D M|n name base fields b inh own NB D R SF IH M];
    intros n' fs' H'; inversion H' as [n1 name1 fields1 own1 D1 M1|n1 name1 base1 fields1 b1 inh1 own1 NB1 D1 R1 SF1 M1];
    subst; pose proof (F _ _ _ D D1) as E; inversion E; subst; try congruence.
  - eapply members_fun; eauto.
  - assert (b = b1) by (eapply denotes_fun; eauto). subst. f_equal; eauto using members_fun.
Qed.

(** ** The invariant of loading *)
Definition raw_or_described (a : abi_def) (n : bytes) (d : adata) : Prop :=
  match d with
  | AAliasDef s => declares a n (DAlias s)
  | AStructDef s => declares a n (DStruct (sd_base s) (field_pairs (sd_fields s)))
  | AVariantDef v => declares a n (DVariant (vd_types v))
  | _ => described a n d
  end.
Definition is_def (d : adata) : bool :=
  match d with AAliasDef _ | AStructDef _ | AVariantDef _ => true | _ => false end.
Definition present (m : amap) (p : bytes) : Prop := afind p m <> None.
Definition no_alias (a : abi_def) (p : bytes) : Prop := forall s, ~ declares a p (DAlias s).

Record inv (a : abi_def) (m : amap) : Prop := {
  inv_decl : forall n, declared a n -> present m n;
  inv_data : forall n d, afind n m = Some d ->
    raw_or_described a n d /\ Forall (present m) (pointers d)
}.
Definition undef_entry (m : amap) (n : bytes) : Prop := exists d, afind n m = Some d /\ is_def d = true.
Record ext (m m' : amap) : Prop := {
  ext_present : forall n, present m n -> present m' n;
  ext_def : forall n, undef_entry m' n -> undef_entry m n
}.
Lemma ext_refl m : ext m m.
Proof. constructor; auto. Qed.
Lemma ext_trans m1 m2 m3 : ext m1 m2 -> ext m2 m3 -> ext m1 m3.
Proof. intros [A B] [C D]. constructor; auto. Qed.

Lemma no_decl a m n : inv a m -> afind n m = None -> ~ declared a n.
Proof. intros I H D. apply (inv_decl _ _ I) in D. contradiction. Qed.

Lemma shape_opt a m p d : inv a m -> afind p m = Some d -> optional_text a p -> exists q, d = AOptional q.
Proof.
  intros I H [N [b ->]]. destruct (inv_data _ _ I _ _ H) as [R _].
  destruct d; cbn in R; eauto; exfalso; try (apply N; eexists; eauto; fail).
  - destruct R as [_ R]. apply N. eexists; eauto.
  - destruct R as (s & D & _). apply N. eexists; eauto.
  - destruct R as (s & E & _). eauto using suffix_qd.
  - destruct R as (s & E & _). eauto using suffix_qa.
  - destruct R as (k & R). inversion R; subst; apply N; eexists; eauto.
  - destruct R as (ts & k & D & _). apply N; eexists; eauto.
Qed.
Lemma shape_arr a m p d : inv a m -> afind p m = Some d -> array_text a p -> exists q, d = AArray q.
Proof.
  intros I H [N [b ->]]. destruct (inv_data _ _ I _ _ H) as [R _].
  destruct d; cbn in R; eauto; exfalso; try (apply N; eexists; eauto; fail).
  - destruct R as [_ R]. apply N. eexists; eauto.
  - destruct R as (s & D & _). apply N. eexists; eauto.
  - destruct R as (s & E & _). eauto using suffix_qa.
  - destruct R as (s & E & _). eauto using suffix_da.
  - destruct R as (k & R). inversion R; subst; apply N; eexists; eauto.
  - destruct R as (ts & k & D & _). apply N; eexists; eauto.
Qed.
Lemma shape_ext a m p d : inv a m -> afind p m = Some d -> extension_text a p -> exists q, d = AExtension q.
Proof.
  intros I H [N [b ->]]. destruct (inv_data _ _ I _ _ H) as [R _].
  destruct d; cbn in R; eauto; exfalso; try (apply N; eexists; eauto; fail).
  - destruct R as [_ R]. apply N. eexists; eauto.
  - destruct R as (s & D & _). apply N. eexists; eauto.
  - destruct R as (s & E & _). eauto using suffix_qd.
  - destruct R as (s & E & _). eauto using suffix_da.
  - destruct R as (k & R). inversion R; subst; apply N; eexists; eauto.
  - destruct R as (ts & k & D & _). apply N; eexists; eauto.
Qed.

Lemma is_extension_spec a m p d : inv a m -> afind p m = Some d ->
  (is_extension d = false <-> ~ extension_text a p).
Proof.
  intros I H. split.
  - intros E X. destruct (shape_ext _ _ _ _ I H X) as [q ->]. discriminate.
  - intros X. destruct d; auto. exfalso. apply X.
    destruct (inv_data _ _ I _ _ H) as [(b & -> & N & _) _]. split; eauto.
Qed.
Lemma is_plain_spec a m p d : inv a m -> afind p m = Some d ->
  (is_optional_array_extension d = false <-> plain_text a p).
Proof.
  intros I H. split.
  - intros E. repeat split; intros X.
    + destruct (shape_opt _ _ _ _ I H X) as [q ->]. discriminate.
    + destruct (shape_arr _ _ _ _ I H X) as [q ->]. discriminate.
    + destruct (shape_ext _ _ _ _ I H X) as [q ->]. discriminate.
  - intros (X & Y & Z). destruct d; auto; exfalso;
      destruct (inv_data _ _ I _ _ H) as [(b & -> & N & _) _].
    + apply X. split; eauto.
    + apply Z. split; eauto.
    + apply Y. split; eauto.
Qed.

(** Adding an optional, array or extension; replacing a definition. *)
Lemma inv_emplace a m k d : inv a m -> afind k m <> None \/ described a k d ->
  Forall (present m) (pointers d) ->
  inv a (fst (try_emplace k d m)).
Proof.
  intros I Hd Hp.
  assert (forall n, present m n -> present (fst (try_emplace k d m)) n) as P.
  { intros n. unfold present. rewrite afind_try_emplace. destruct (afind k m); auto.
    destruct (beq n k); congruence. }
  constructor.
  - intros n D. apply P. apply (inv_decl _ _ I). auto.
  - intros n d' H. rewrite afind_try_emplace in H.
    assert (afind n m = Some d' -> raw_or_described a n d' /\
      Forall (present (fst (try_emplace k d m))) (pointers d')) as Old.
    { intros E. destruct (inv_data _ _ I _ _ E) as [R F]. split; auto.
      eapply Forall_impl; [|exact F]. auto. }
    destruct (afind k m) eqn:Ek; auto.
    destruct (beq n k) eqn:En; auto.
    apply beq_eq in En. subst. assert (d' = d) by congruence. subst.
    destruct Hd as [Hd|Hd]; [congruence|]. split.
    + destruct d; cbn in Hd |- *; auto; contradiction.
    + eapply Forall_impl; [|exact Hp]. auto.
Qed.
Lemma ext_emplace m k d : is_def d = false -> ext m (fst (try_emplace k d m)).
Proof.
  intros N. constructor.
  - intros n. unfold present. rewrite afind_try_emplace. destruct (afind k m); auto.
    destruct (beq n k); congruence.
  - intros n (d' & H & Hd). rewrite afind_try_emplace in H.
    destruct (afind k m); [exists d'; auto|].
    destruct (beq n k) eqn:En; [|exists d'; auto]. assert (d' = d) by congruence. subst. congruence.
Qed.
Lemma present_emplace m k d : present (fst (try_emplace k d m)) k.
Proof.
  unfold present. rewrite afind_try_emplace. destruct (afind k m) eqn:E; [congruence|].
  rewrite beq_refl. discriminate.
Qed.

Lemma inv_aset a m k d : inv a m -> raw_or_described a k d -> Forall (present m) (pointers d) ->
  inv a (aset k d m).
Proof.
  intros I Hd Hp.
  assert (forall n, present m n -> present (aset k d m) n) as P.
  { intros n. unfold present. rewrite afind_aset. destruct (afind k m); auto.
    destruct (beq n k); congruence. }
  constructor.
  - intros n D. apply P. apply (inv_decl _ _ I). auto.
  - intros n d' H. rewrite afind_aset in H.
    assert (afind n m = Some d' -> raw_or_described a n d' /\
      Forall (present (aset k d m)) (pointers d')) as Old.
    { intros E. destruct (inv_data _ _ I _ _ E) as [R F]. split; auto.
      eapply Forall_impl; [|exact F]. auto. }
    destruct (afind k m) eqn:Ek; auto.
    destruct (beq n k) eqn:En; auto.
    apply beq_eq in En. subst. assert (d' = d) by congruence. subst. split; auto.
    eapply Forall_impl; [|exact Hp]. auto.
Qed.
Lemma ext_aset m k d : is_def d = false -> ext m (aset k d m).
Proof.
  intros N. constructor.
  - intros n. unfold present. rewrite afind_aset. destruct (afind k m); auto.
    destruct (beq n k); congruence.
  - intros n (d' & H & Hd). rewrite afind_aset in H.
    destruct (afind k m); [|exists d'; auto].
    destruct (beq n k) eqn:En; [|exists d'; auto]. assert (d' = d) by congruence. subst. congruence.
Qed.

(** ** get_type *)
Definition good_ptr a m t (r : res (bytes * amap)) : Prop :=
  match r with
  | Ok (p, m') => inv a m' /\ ext m m' /\ denotes a t p /\ present m' p
  | Err e => In e load_errors
  | Undef _ => False
  end.

Lemma deref_present p m : present m p -> exists d, deref p m = Ok d /\ afind p m = Some d.
Proof. unfold present, deref. destruct (afind p m); [eauto|congruence]. Qed.

Ltac in_errors := cbn; repeat (try (left; reflexivity); right); tauto.

Lemma get_type_good a d : forall m t, inv a m -> good_ptr a m t (get_type d m t).
Proof.
  induction d as [|d IH]; intros m t I; cbn [get_type].
  - cbn. auto.
  - destruct (afind t m) as [x|] eqn:Ht.
    + destruct (inv_data _ _ I _ _ Ht) as [R F].
      assert (forall dd, declares a t dd -> (forall s, dd <> DAlias s) -> good_ptr a m t (Ok (t, m))) as Self.
      { intros dd D N. cbn. split; [auto|]. split; [apply ext_refl|]. split.
        - exists 1%nat. eapply refers_declared; eauto.
        - unfold present. congruence. }
      destruct x; cbn in R.
      * eapply Self; [apply R|discriminate].
      * specialize (IH m t0 I). destruct (get_type d m t0) as [[p m1]|e|w]; cbn in IH |- *; auto.
        destruct IH as (I1 & E1 & D1 & P1).
        destruct (deref_present _ _ P1) as (x & -> & Hx). cbn.
        destruct (is_extension x) eqn:Xe; cbn; [in_errors|].
        assert (~ extension_text a p) as NX by exact (proj1 (is_extension_spec _ _ _ _ I1 Hx) Xe).
        split; [|split; [|split]].
        -- apply (inv_aset a m1 t (AAlias p) I1); [cbn; eauto|]. constructor; [exact P1|constructor].
        -- eapply ext_trans; [exact E1|]. apply ext_aset. reflexivity.
        -- destruct D1 as [n D1]. exists (S n). eapply refers_alias; eauto.
        -- apply (ext_present m1); auto. apply ext_aset. reflexivity.
      * eapply Self; [apply R|discriminate].
      * eapply Self; [apply R|discriminate].
      * destruct R as (s & D & (n & Dn) & NX). cbn. split; [auto|]. split; [apply ext_refl|]. split.
        -- exists (S n). eapply refers_alias; eauto.
        -- inversion F; auto.
      * destruct R as (b & -> & D & (n & Dn) & NX). cbn. split; [auto|]. split; [apply ext_refl|]. split.
        -- exists (S n). eapply refers_optional; eauto.
        -- unfold present. congruence.
      * destruct R as (b & -> & D & (n & Dn) & NX). cbn. split; [auto|]. split; [apply ext_refl|]. split.
        -- exists (S n). eapply refers_extension; eauto.
        -- unfold present. congruence.
      * destruct R as (b & -> & D & (n & Dn) & NX). cbn. split; [auto|]. split; [apply ext_refl|]. split.
        -- exists (S n). eapply refers_array; eauto.
        -- unfold present. congruence.
      * destruct R as (k & R). inversion R; subst; (eapply Self; [eassumption|discriminate]).
      * destruct R as (ts & k & D & _). eapply Self; [eassumption|discriminate].
    + pose proof (no_decl _ _ _ I Ht) as ND.
      destruct (ends_with t (str "?")) eqn:E1; [|destruct (ends_with t (str "[]")) eqn:E2;
        [|destruct (ends_with t (str "$")) eqn:E3]].
      * apply ends_with_spec in E1. destruct E1 as [b ->].
        change 1%nat with (List.length (str "?")). rewrite drop_last_app.
        specialize (IH m b I). destruct (get_type d m b) as [[p m1]|e|w]; cbn in IH |- *; auto.
        destruct IH as (I1 & X1 & (n & D1) & P1).
        destruct (deref_present _ _ P1) as (x & -> & Hx). cbn.
        destruct (is_optional_array_extension x) eqn:Xe; cbn; [in_errors|].
        assert (plain_text a p) as NX by exact (proj1 (is_plain_spec _ _ _ _ I1 Hx) Xe).
        split; [|split; [|split]].
        -- apply inv_emplace; auto.
           ++ right. cbn. exists b. repeat split; auto; try apply NX. exists n. auto.
           ++ constructor; [exact P1|constructor].
        -- eapply ext_trans; [exact X1|]. apply ext_emplace. reflexivity.
        -- exists (S n). eapply refers_optional; eauto.
        -- apply present_emplace.
      * apply ends_with_spec in E2. destruct E2 as [b ->].
        change 2%nat with (List.length (str "[]")). rewrite drop_last_app.
        specialize (IH m b I). destruct (get_type d m b) as [[p m1]|e|w]; cbn in IH |- *; auto.
        destruct IH as (I1 & X1 & (n & D1) & P1).
        destruct (deref_present _ _ P1) as (x & -> & Hx). cbn.
        destruct (is_optional_array_extension x) eqn:Xe; cbn; [in_errors|].
        assert (plain_text a p) as NX by exact (proj1 (is_plain_spec _ _ _ _ I1 Hx) Xe).
        split; [|split; [|split]].
        -- apply inv_emplace; auto.
           ++ right. cbn. exists b. repeat split; auto; try apply NX. exists n. auto.
           ++ constructor; [exact P1|constructor].
        -- eapply ext_trans; [exact X1|]. apply ext_emplace. reflexivity.
        -- exists (S n). eapply refers_array; eauto.
        -- apply present_emplace.
      * apply ends_with_spec in E3. destruct E3 as [b ->].
        change 1%nat with (List.length (str "$")). rewrite drop_last_app.
        specialize (IH m b I). destruct (get_type d m b) as [[p m1]|e|w]; cbn in IH |- *; auto.
        destruct IH as (I1 & X1 & (n & D1) & P1).
        destruct (deref_present _ _ P1) as (x & -> & Hx). cbn.
        destruct (is_extension x) eqn:Xe; cbn; [in_errors|].
        assert (~ extension_text a p) as NX by exact (proj1 (is_extension_spec _ _ _ _ I1 Hx) Xe).
        split; [|split; [|split]].
        -- apply inv_emplace; auto.
           ++ right. cbn. exists b. repeat split; auto. exists n. auto.
           ++ constructor; [exact P1|constructor].
        -- eapply ext_trans; [exact X1|]. apply ext_emplace. reflexivity.
        -- exists (S n). eapply refers_extension; eauto.
        -- apply present_emplace.
      * cbn. auto.
Qed.

Lemma get_type_complete a : functional a -> forall n t p, refers_to a n t p ->
  forall d m, (n <= d)%nat -> inv a m -> exists m', get_type d m t = Ok (p, m').
Proof.
  intros F.
  (* it is enough not to fail *)
  assert (forall n t p d m, refers_to a n t p -> inv a m ->
            (exists q, get_type d m t = Ok q) -> exists m', get_type d m t = Ok (p, m')) as Enough.
  { intros n t p d m R I ([q m'] & E). pose proof (get_type_good a d m t I) as G. rewrite E in G.
    destruct G as (_ & _ & (k & D) & _). exists m'. rewrite E.
    rewrite (denotes_fun a F _ _ _ R _ _ D). reflexivity. }
  induction 1 as [n t dd D N|n t s p D R IH NX|n b p ND R IH PL|n b p ND R IH PL|n b p ND R IH PL];
    intros d m Hd I; (destruct d as [|d]; [lia|]).
  - eapply Enough; eauto; [eapply (refers_declared a 0); eauto|]. cbn [get_type].
    destruct (afind t m) as [x|] eqn:Ht.
    + destruct (inv_data _ _ I _ _ Ht) as [Rd _].
      destruct x; eauto; cbn in Rd.
      * exfalso. eapply N. eapply F; eauto.
    + exfalso. eapply (no_decl _ _ _ I Ht). eexists; eauto.
  - eapply Enough; eauto; [eapply refers_alias; eauto|]. cbn [get_type].
    destruct (afind t m) as [x|] eqn:Ht.
    + destruct (inv_data _ _ I _ _ Ht) as [Rd _].
      destruct x; eauto; cbn in Rd.
      pose proof (F _ _ _ D Rd) as E. inversion E; subst.
      destruct (IH d m ltac:(lia) I) as [m1 E1].
      pose proof (get_type_good a d m t0 I) as G. rewrite E1 in G. destruct G as (I1 & _ & _ & P1).
      rewrite E1. cbn. destruct (deref_present _ _ P1) as (y & -> & Hy). cbn.
      rewrite (proj2 (is_extension_spec _ _ _ _ I1 Hy) NX). cbn. eauto.
    + exfalso. eapply (no_decl _ _ _ I Ht). eexists; eauto.
  - eapply Enough; eauto; [eapply refers_optional; eauto|]. cbn [get_type].
    destruct (afind (b ++ str "?") m) as [x|] eqn:Ht.
    + destruct (inv_data _ _ I _ _ Ht) as [Rd _].
      destruct (shape_opt _ _ _ _ I Ht ltac:(split; eauto)) as [q ->]. eauto.
    + rewrite ends_with_app. change 1%nat with (List.length (str "?")). rewrite drop_last_app.
      destruct (IH d m ltac:(lia) I) as [m1 E1].
      pose proof (get_type_good a d m b I) as G. rewrite E1 in G. destruct G as (I1 & _ & _ & P1).
      rewrite E1. cbn. destruct (deref_present _ _ P1) as (y & -> & Hy). cbn.
      rewrite (proj2 (is_plain_spec _ _ _ _ I1 Hy) PL). cbn. eauto.
  - eapply Enough; eauto; [eapply refers_array; eauto|]. cbn [get_type].
    destruct (afind (b ++ str "[]") m) as [x|] eqn:Ht.
    + destruct (shape_arr _ _ _ _ I Ht ltac:(split; eauto)) as [q ->]. eauto.
    + rewrite (ends_with_false _ (str "?")) by (intros; eauto using suffix_qa).
      rewrite ends_with_app. change 2%nat with (List.length (str "[]")). rewrite drop_last_app.
      destruct (IH d m ltac:(lia) I) as [m1 E1].
      pose proof (get_type_good a d m b I) as G. rewrite E1 in G. destruct G as (I1 & _ & _ & P1).
      rewrite E1. cbn. destruct (deref_present _ _ P1) as (y & -> & Hy). cbn.
      rewrite (proj2 (is_plain_spec _ _ _ _ I1 Hy) PL). cbn. eauto.
  - eapply Enough; eauto; [eapply refers_extension; eauto|]. cbn [get_type].
    destruct (afind (b ++ str "$") m) as [x|] eqn:Ht.
    + destruct (shape_ext _ _ _ _ I Ht ltac:(split; eauto)) as [q ->]. eauto.
    + rewrite (ends_with_false _ (str "?")) by (intros; eauto using suffix_qd).
      rewrite (ends_with_false _ (str "[]")) by (intros; eauto using suffix_da).
      rewrite ends_with_app. change 1%nat with (List.length (str "$")). rewrite drop_last_app.
      destruct (IH d m ltac:(lia) I) as [m1 E1].
      pose proof (get_type_good a d m b I) as G. rewrite E1 in G. destruct G as (I1 & _ & _ & P1).
      rewrite E1. cbn. destruct (deref_present _ _ P1) as (y & -> & Hy). cbn.
      rewrite (proj2 (is_extension_spec _ _ _ _ I1 Hy) PL). cbn. eauto.
Qed.
