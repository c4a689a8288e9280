(** * AbiLoad: convert(abi_def, abi) against the meaning of definitions *)
From Verif Require Import Base Abi AbiSpec AbiFacts.

(** ** Members *)
Definition good_members a m ms (r : res (list (bytes * bytes) * amap)) : Prop :=
  match r with
  | Ok (fs, m') => inv a m' /\ ext m m' /\ (exists k, members_refer a k ms fs)
                   /\ Forall (present m') (map snd fs)
  | Err e => In e load_errors
  | Undef _ => False
  end.

Lemma get_types_good a d ms : forall m, inv a m -> good_members a m ms (get_types d ms m).
Proof.
  induction ms as [|[n t] ms IH]; intros m I; cbn [get_types].
  - cbn. split; [auto|]. split; [apply ext_refl|]. split; [exists 0%nat; constructor|constructor].
  - pose proof (get_type_good a d m t I) as G.
    destruct (get_type d m t) as [[p m1]|e|w]; cbn in G |- *; auto.
    destruct G as (I1 & E1 & (k & D) & P).
    specialize (IH m1 I1). destruct (get_types d ms m1) as [[fs m2]|e|w]; cbn in IH |- *; auto.
    destruct IH as (I2 & E2 & (k' & M) & F). split; [auto|]. split; [eapply ext_trans; eauto|]. split.
    + exists (Nat.max k k'). constructor.
      * split; auto. cbn. eapply refers_mono; eauto. lia.
      * eapply members_mono; eauto. lia.
    + constructor; auto. cbn. eapply ext_present; eauto.
Qed.

Lemma get_types_complete a n ms fs : functional a -> members_refer a n ms fs ->
  forall d m, (n <= d)%nat -> inv a m -> exists m', get_types d ms m = Ok (fs, m').
Proof.
  intros F. induction 1 as [|[mn mt] [fn ft] ms fs [Hn Hr] _ IH]; intros d m Hd I; cbn [get_types].
  - eauto.
  - cbn in Hn, Hr. subst.
    destruct (get_type_complete a F _ _ _ Hr d m Hd I) as [m1 E1].
    pose proof (get_type_good a d m mt I) as G. rewrite E1 in G |- *. destruct G as (I1 & _).
    cbn. destruct (IH d m1 Hd I1) as [m2 E2]. rewrite E2. cbn. eauto.
Qed.

(** ** Structs *)
Definition good_struct a m name (r : res (list (bytes * bytes) * amap)) : Prop :=
  match r with
  | Ok (fs, m') => inv a m' /\ ext m m' /\ (exists k, struct_fields a k name fs)
                   /\ Forall (present m') (map snd fs)
  | Err e => In e load_errors
  | Undef _ => False
  end.

Lemma resolve_struct_good a d : forall m s name, inv a m ->
  declares a name (DStruct (sd_base s) (field_pairs (sd_fields s))) ->
  good_struct a m name (resolve_struct d m s).
Proof.
  induction d as [|d IH]; intros m s name I D; cbn [resolve_struct].
  - cbn. auto.
  - assert (forall m1 bf, inv a m1 -> ext m m1 -> Forall (present m1) (map snd bf) ->
              (forall k own, members_refer a k (field_pairs (sd_fields s)) own ->
                 exists k', struct_fields a k' name (bf ++ own)) ->
              good_struct a m name
                (let* (own, m2) := get_types d (field_pairs (sd_fields s)) m1 in Ok (bf ++ own, m2))) as Rest.
    { intros m1 bf I1 E1 P1 H. pose proof (get_types_good a d (field_pairs (sd_fields s)) m1 I1) as G.
      destruct (get_types d (field_pairs (sd_fields s)) m1) as [[own m2]|e|w]; cbn in G |- *; auto.
      destruct G as (I2 & E2 & (k & M) & P2). split; [auto|]. split; [eapply ext_trans; eauto|].
      split; [eapply H; eauto|]. rewrite map_app. apply Forall_app. split; auto.
      eapply Forall_impl; [|exact P1]. apply E2. }
    destruct (sd_base s) as [|c b] eqn:Eb.
    + cbn [bind]. apply (Rest m []); auto using ext_refl; [constructor|].
      intros k own M. exists (S k). eapply fields_root; eauto.
    + pose proof (get_type_good a d m (c :: b) I) as G.
      destruct (get_type d m (c :: b)) as [[p m1]|e|w]; cbn [good_ptr bind] in G |- *; auto.
      destruct G as (I1 & E1 & (k1 & D1) & P1).
      destruct (deref_present _ _ P1) as (x & Hd & Hx). rewrite Hd. cbn [bind].
      assert (forall m2 fs, inv a m2 -> ext m m2 -> Forall (present m2) (map snd fs) ->
                (exists k, struct_fields a k p fs) ->
                good_struct a m name
                  (let* (own, m3) := get_types d (field_pairs (sd_fields s)) m2 in Ok (fs ++ own, m3))) as Fin.
      { intros m2 fs I2 E2 P2 (k2 & SF). apply Rest; auto. intros k own M.
        exists (S (Nat.max k (Nat.max k1 k2))). eapply fields_derived; eauto; [discriminate| | |].
        - eapply refers_mono; eauto; lia.
        - eapply struct_fields_mono; eauto; lia.
        - eapply members_mono; eauto; lia. }
      assert (forall y, x = y -> (match y with AStructDef _ | AStruct _ => False | _ => True end) ->
              good_struct a m name (let* (base_fields, m0) :=
                let* x0 := deref p m1 in match x0 with AStruct fs => Ok (fs, m1) | _ => Err E_base_not_a_struct end
                in let* (own, m2) := get_types d (field_pairs (sd_fields s)) m0 in Ok (base_fields ++ own, m2))) as Bad.
      { intros y <- Hy. rewrite Hd. cbn [bind]. destruct x; try contradiction; cbn; in_errors. }
      destruct (inv_data _ _ I1 _ _ Hx) as [R F].
      destruct x; cbn [bind]; try (eapply Bad; [reflexivity|exact Logic.I]; fail).
      * cbn in R. specialize (IH m1 s0 p I1 R).
        destruct (resolve_struct d m1 s0) as [[fs m2]|e|w]; cbn [good_struct bind] in IH |- *; auto.
        destruct IH as (I2 & E2 & SF & P2).
        assert (present m2 p) as Pp by (apply E2; auto).
        assert (inv a (aset p (AStruct fs) m2)) as I3.
        { apply inv_aset; auto. }
        assert (ext m2 (aset p (AStruct fs) m2)) as E3 by (apply ext_aset; reflexivity).
        assert (afind p (aset p (AStruct fs) m2) = Some (AStruct fs)) as Hp.
        { rewrite afind_aset, beq_refl. destruct (afind p m2) eqn:Y; auto. contradiction. }
        unfold deref at 1. rewrite Hp. cbn [bind].
        apply Fin; auto.
        -- eapply ext_trans; [exact E1|]. eapply ext_trans; eauto.
        -- eapply Forall_impl; [|exact P2]. apply E3.
      * rewrite Hd. cbn [bind]. apply Fin; auto.
Qed.

Lemma resolve_struct_complete a : functional a -> forall n name fs, struct_fields a n name fs ->
  forall d m s, (n <= d)%nat -> inv a m ->
    declares a name (DStruct (sd_base s) (field_pairs (sd_fields s))) ->
    exists m', resolve_struct d m s = Ok (fs, m').
Proof.
  intros F.
  induction 1 as [n name fields own D M|n name base fields b inh own NB D R SF IH M];
    intros d m s Hd I Ds; (destruct d as [|d]; [lia|]); cbn [resolve_struct];
    pose proof (F _ _ _ D Ds) as E; inversion E; subst.
  - cbn. destruct (get_types_complete a _ _ _ F M d m ltac:(lia) I) as [m1 E1].
    rewrite E1. cbn. eauto.
  - destruct (sd_base s) as [|c bb] eqn:Eb; [contradiction|].
    destruct (get_type_complete a F _ _ _ R d m ltac:(lia) I) as [m1 E1].
    pose proof (get_type_good a d m (c :: bb) I) as G. rewrite E1 in G |- *.
    destruct G as (I1 & X1 & _ & P1). cbn [bind].
    destruct (deref_present _ _ P1) as (x & Hd1 & Hx). rewrite Hd1. cbn [bind].
    destruct (inv_data _ _ I1 _ _ Hx) as [Rd _].
    assert (exists bb' ff, declares a b (DStruct bb' ff)) as (bb' & ff & Db)
      by (inversion SF; subst; eauto).
    assert (forall dd, declares a b dd -> dd = DStruct bb' ff) as Uq by (intros; eapply F; eauto).
    assert (forall m2, inv a m2 -> exists m', (let* (o, m3) :=
        get_types d (field_pairs (sd_fields s)) m2 in Ok (inh ++ o, m3)) = Ok (inh ++ own, m')) as Fin.
    { intros m2 I2. destruct (get_types_complete a _ _ _ F M d m2 ltac:(lia) I2) as [m3 E3].
      rewrite E3. cbn. eauto. }
    destruct x; cbn in Rd.
    + destruct Rd as [_ Rd]. apply Uq in Rd. discriminate.
    + apply Uq in Rd. discriminate.
    + destruct (IH d m1 s0 ltac:(lia) I1 Rd) as [m2 E2].
      pose proof (resolve_struct_good a d m1 s0 b I1 Rd) as G. rewrite E2 in G |- *.
      destruct G as (I2 & X2 & _ & P2). cbn [bind].
      assert (present m2 b) as Pb by (apply X2; auto).
      unfold deref at 1. rewrite afind_aset, beq_refl.
      destruct (afind b m2) eqn:Y; [|contradiction]. cbn [bind].
      apply Fin. apply inv_aset; auto. cbn. eauto.
    + apply Uq in Rd. discriminate.
    + destruct Rd as (s0 & Rd & _). apply Uq in Rd. discriminate.
    + destruct Rd as (b0 & -> & ND & _). exfalso. apply ND. eexists; eauto.
    + destruct Rd as (b0 & -> & ND & _). exfalso. apply ND. eexists; eauto.
    + destruct Rd as (b0 & -> & ND & _). exfalso. apply ND. eexists; eauto.
    + cbn [bind]. rewrite Hd1. cbn [bind]. destruct Rd as (k & SF').
      rewrite <- (struct_fields_fun a F _ _ _ SF _ _ SF'). apply Fin; auto.
    + destruct Rd as (ts & k & Rd & _). apply Uq in Rd. discriminate.
Qed.

(** ** fill *)
Definition good_fill a m (r : res amap) : Prop :=
  match r with
  | Ok m' => inv a m' /\ ext m m'
  | Err e => In e load_errors
  | Undef _ => False
  end.

Lemma no_undef_aset m k d : is_def d = false -> present m k -> ~ undef_entry (aset k d m) k.
Proof.
  intros N P (d' & H & Hd). rewrite afind_aset, beq_refl in H. unfold present in P.
  destruct (afind k m); congruence.
Qed.

Lemma fill_good a m k : inv a m -> present m k ->
  good_fill a m (fill 32 m k) /\ (forall m', fill 32 m k = Ok m' -> ~ undef_entry m' k).
Proof.
  intros I P. unfold fill. destruct (deref_present _ _ P) as (x & Hd & Hx). rewrite Hd. cbn [bind].
  destruct (inv_data _ _ I _ _ Hx) as [R F].
  assert (is_def x = false -> good_fill a m (Ok m) /\ (forall m', Ok m = Ok m' -> ~ undef_entry m' k)) as Triv.
  { intros N. split; [cbn; split; auto using ext_refl|]. intros m' H (d & Hd' & Hdd).
    assert (m' = m) by congruence. subst. assert (d = x) by congruence. subst. congruence. }
  destruct x; try (apply Triv; reflexivity); cbn in R.
  - pose proof (get_type_good a 31 m t I) as G.
    destruct (get_type 31 m t) as [[p m1]|e|w]; cbn [good_ptr bind] in G |- *;
      [|split; [exact G|discriminate]|contradiction].
    destruct G as (I1 & E1 & D1 & P1).
    destruct (deref_present _ _ P1) as (y & Hdy & Hy). rewrite Hdy. cbn [bind].
    destruct (is_extension y) eqn:Xe; cbn [negb check bind];
      [split; [cbn [good_fill]; in_errors|discriminate]|].
    assert (~ extension_text a p) as NX by exact (proj1 (is_extension_spec _ _ _ _ I1 Hy) Xe).
    split.
    + cbn [good_fill]. split.
      * apply inv_aset; auto; [cbn; eauto|]. constructor; [exact P1|constructor].
      * eapply ext_trans; [exact E1|]. apply ext_aset. reflexivity.
    + intros m' H. assert (m' = aset k (AAlias p) m1) by congruence. subst.
      apply no_undef_aset; [reflexivity|]. apply E1; auto.
  - pose proof (resolve_struct_good a 32 m s k I R) as G.
    destruct (resolve_struct 32 m s) as [[fs m1]|e|w]; cbn [good_struct bind] in G |- *;
      [|split; [exact G|discriminate]|contradiction].
    destruct G as (I1 & E1 & SF & P1). split.
    + cbn [good_fill]. split.
      * apply inv_aset; auto.
      * eapply ext_trans; [exact E1|]. apply ext_aset. reflexivity.
    + intros m' H. assert (m' = aset k (AStruct fs) m1) by congruence. subst.
      apply no_undef_aset; [reflexivity|]. apply E1; auto.
  - cbn [resolve_variant].
    pose proof (get_types_good a 31 (variant_pairs (vd_types v)) m I) as G.
    destruct (get_types 31 (variant_pairs (vd_types v)) m) as [[fs m1]|e|w]; cbn [good_members bind] in G |- *;
      [|split; [exact G|discriminate]|contradiction].
    destruct G as (I1 & E1 & (n & M) & P1). split.
    + cbn [good_fill]. split.
      * apply inv_aset; auto. cbn. exists (vd_types v), n. auto.
      * eapply ext_trans; [exact E1|]. apply ext_aset. reflexivity.
    + intros m' H. assert (m' = aset k (AVariant fs) m1) by congruence. subst.
      apply no_undef_aset; [reflexivity|]. apply E1; auto.
Qed.

Lemma fill_all_good a ks : forall m, inv a m -> Forall (present m) ks ->
  good_fill a m (fill_all ks m) /\
  (forall m', fill_all ks m = Ok m' -> forall k, In k ks -> ~ undef_entry m' k).
Proof.
  induction ks as [|k ks IH]; intros m I P; cbn [fill_all].
  - cbn. split; [split; auto using ext_refl|]. intros _ _ k [].
  - inversion P; subst. destruct (fill_good a m k I H1) as [G N].
    destruct (fill 32 m k) as [m1|e|w]; cbn [good_fill bind] in G |- *;
      [|split; [exact G|discriminate]|contradiction].
    destruct G as [I1 E1].
    assert (Forall (present m1) ks) as P1 by (eapply Forall_impl; [|exact H2]; apply E1).
    destruct (IH m1 I1 P1) as [G2 N2].
    destruct (fill_all ks m1) as [m2|e|w]; cbn [good_fill] in G2 |- *;
      [|split; [exact G2|discriminate]|contradiction].
    destruct G2 as [I2 E2]. split; [split; auto; eapply ext_trans; eauto|].
    intros m' H k' [<-|Hin].
    + intros U. assert (m' = m2) by congruence. subst.
      eapply N; [reflexivity|]. apply E2. exact U.
    + eapply N2; eauto.
Qed.

(** ** Declarations *)
Lemma declare_spec l : forall m,
  match declare l m with
  | Ok m' => Forall (fun e => fst e <> []) l /\ NoDup (map fst l)
             /\ Forall (fun e => afind (fst e) m = None) l
             /\ (forall n d, afind n m' = Some d <-> In (n, d) l \/ afind n m = Some d)
  | Err e => (e = E_missing_name /\ In [] (map fst l)) \/
             (e = E_redefined_type /\ ~ (NoDup (map fst l) /\ Forall (fun e => afind (fst e) m = None) l))
  | Undef _ => False
  end.
Proof.
  induction l as [|[k d] l IH]; intros m; cbn [declare map fst].
  - split; [constructor|]. split; [constructor|]. split; [constructor|].
    intros n d. cbn. tauto.
  - destruct (beq k []) eqn:Ek; cbn [negb check bind].
    { left. apply beq_eq in Ek. subst. split; auto. left. auto. }
    apply beq_neq in Ek. unfold try_emplace. destruct (afind k m) eqn:Em; cbn [check bind].
    { right. split; auto. intros [_ H]. inversion H; subst. cbn in *. congruence. }
    specialize (IH (ainsert k d m)).
    assert (forall x, afind x (ainsert k d m) = if beq x k then Some d else afind x m) as Fi
      by (intros; now apply afind_ainsert).
    assert (Forall (fun e => afind (fst e) (ainsert k d m) = None) l <->
            Forall (fun e => afind (fst e) m = None) l /\ ~ In k (map fst l)) as Feq.
    { rewrite !Forall_forall. split.
      - intros H. split.
        + intros e He. specialize (H e He). rewrite Fi in H. destruct (beq (fst e) k); congruence.
        + intros Hin. apply in_map_iff in Hin. destruct Hin as (e & <- & He).
          specialize (H e He). rewrite Fi, beq_refl in H. discriminate.
      - intros [H N] e He. rewrite Fi. destruct (beq (fst e) k) eqn:E; auto.
        apply beq_eq in E. exfalso. apply N. rewrite <- E. now apply in_map. }
    destruct (declare l (ainsert k d m)) as [m'|e|w]; auto.
    + destruct IH as (A & B & C & D0). apply Feq in C. destruct C as [C C'].
      split; [constructor; auto|]. split; [constructor; auto|]. split; [constructor; auto|].
      intros n d0. rewrite D0, Fi. cbn [In].
      destruct (beq n k) eqn:E.
      * apply beq_eq in E. subst. split.
        -- intros [H|H]; [auto|]. left. left. congruence.
        -- intros [[H|H]|H]; [right; congruence|auto|congruence].
      * apply beq_neq in E. split; [tauto|]. intros [[H|H]|H]; auto. congruence.
    + destruct IH as [[-> H]|[-> H]]; [left|right]; split; auto; [right; auto|].
      intros [ND FA]. apply H. inversion ND; subst. inversion FA; subst.
      split; auto. apply Feq. split; auto.
Qed.

(** The initial table. *)
Definition initial_ok (e : bytes * adata) : Prop :=
  (exists b, e = (builtin_name b, ABuiltin b)) \/
  e = (str "extended_asset", AStruct [(str "quantity", str "asset"); (str "contract", str "name")]).

Lemma try_emplace_forall (P : bytes * adata -> Prop) k d m :
  P (k, d) -> Forall P m -> Forall P (fst (try_emplace k d m)).
Proof.
  intros Pk Pm. unfold try_emplace. destruct (afind k m); cbn [fst]; auto.
  induction Pm as [|[k0 d0] m P0 Pm IH]; cbn; [constructor; auto|].
  destruct (lex_ltb k k0); repeat constructor; auto.
Qed.
Lemma initial_entries : Forall initial_ok initial_types.
Proof.
  assert (forall l m, Forall initial_ok m -> Forall initial_ok (emplace_builtins l m)) as EB.
  { induction l as [|b l IHl]; intros m Hm; cbn [emplace_builtins]; auto.
    apply IHl. apply try_emplace_forall; auto. left. eauto. }
  unfold initial_types. apply try_emplace_forall; [right; reflexivity|]. apply EB. constructor.
Qed.
Lemma string_in s l : existsb (String.eqb s) l = true -> In s l.
Proof.
  intros H. apply existsb_exists in H. destruct H as (x & Hx & E). apply String.eqb_eq in E. subst. auto.
Qed.
Lemma builtin_string_in b : In (builtin_string b) builtin_type_names.
Proof. apply string_in. destruct b; vm_compute; reflexivity. Qed.
Lemma builtin_declared a b : declares a (builtin_name b) DBuiltin.
Proof. apply declares_builtin, builtin_string_in. Qed.

Lemma initial_present : Forall (present initial_types) (str "extended_asset" :: map str builtin_type_names).
Proof. repeat constructor; (intros H; vm_compute in H; discriminate). Qed.
Lemma initial_keys n : present initial_types n ->
  In n (map str builtin_type_names ++ [str "extended_asset"]).
Proof.
  unfold present. destruct (afind n initial_types) as [d|] eqn:E; [|congruence]. intros _.
  apply afind_In in E. pose proof (proj1 (Forall_forall _ _) initial_entries _ E) as [(b & H)|H].
  - apply in_or_app. left. assert (n = builtin_name b) by congruence. subst.
    apply (in_map str _ (builtin_string b)). apply builtin_string_in.
  - apply in_or_app. right. assert (n = str "extended_asset") by congruence. subst. left. reflexivity.
Qed.

(** ** The declared table satisfies the invariant *)
Lemma declarations_names a :
  map fst (declarations a) =
  map new_type_name (ad_types a) ++ map sd_name (ad_structs a) ++ map vd_name (ad_variants a).
Proof. unfold declarations. rewrite !map_app, !map_map. reflexivity. Qed.

Lemma declared_raw a n d : In (n, d) (declarations a) -> raw_or_described a n d.
Proof.
  unfold declarations. rewrite !in_app_iff, !in_map_iff.
  intros [(t & E & Ht)|[(t & E & Ht)|(t & E & Ht)]];
    [unfold type_decl in E|unfold struct_decl in E|unfold variant_decl in E]; inversion E; subst; cbn.
  - now constructor.
  - now apply declares_struct.
  - now constructor.
Qed.

Lemma extended_asset_fields a :
  struct_fields a 2 (str "extended_asset") [(str "quantity", str "asset"); (str "contract", str "name")].
Proof.
  eapply fields_root; [apply declares_extended_asset|].
  repeat constructor; cbn [snd].
  - eapply refers_declared; [apply (declares_builtin a "asset"); apply string_in; reflexivity|discriminate].
  - eapply refers_declared; [apply (declares_builtin a "name"); apply string_in; reflexivity|discriminate].
Qed.

Lemma declared_inv a m : declare (declarations a) initial_types = Ok m -> inv a m.
Proof.
  intros H. pose proof (declare_spec (declarations a) initial_types) as S. rewrite H in S.
  destruct S as (_ & _ & _ & Iff).
  assert (forall n, present initial_types n -> present m n) as P.
  { intros n Hn. unfold present in *. destruct (afind n initial_types) as [d|] eqn:E; [|congruence].
    rewrite (proj2 (Iff n d)); [discriminate|auto]. }
  pose proof initial_present as IP.
  assert (forall n d, In (n, d) (declarations a) -> present m n) as Q.
  { intros n d Hin. unfold present. rewrite (proj2 (Iff n d)); [discriminate|auto]. }
  constructor.
  - intros n [d D]. destruct D.
    + apply P. eapply Forall_forall in IP; [exact IP|]. right. apply in_map. auto.
    + apply P. inversion IP; auto.
    + eapply (Q _ (AAliasDef (td_type t))). apply in_or_app. left. apply in_map_iff. exists t. auto.
    + eapply (Q _ (AStructDef s)). apply in_or_app. right. apply in_or_app. left.
      apply in_map_iff. exists s. auto.
    + eapply (Q _ (AVariantDef v)). apply in_or_app. right. apply in_or_app. right.
      apply in_map_iff. exists v. auto.
  - intros n d Hf. apply Iff in Hf. destruct Hf as [Hf|Hf].
    + split; [now apply declared_raw|].
      unfold declarations in Hf. rewrite !in_app_iff, !in_map_iff in Hf.
      destruct Hf as [(t & E & _)|[(t & E & _)|(t & E & _)]]; inversion E; subst; constructor.
    + apply afind_In in Hf.
      pose proof (proj1 (Forall_forall _ _) initial_entries _ Hf) as [(b & X)|X].
      * assert (n = builtin_name b /\ d = ABuiltin b) as [-> ->] by (split; congruence).
        split; [split; [reflexivity|apply builtin_declared]|constructor].
      * assert (n = str "extended_asset" /\
          d = AStruct [(str "quantity", str "asset"); (str "contract", str "name")]) as [-> ->]
          by (split; congruence).
        split; [exists 2%nat; apply extended_asset_fields|]. cbn [pointers map snd].
        rewrite Forall_forall in IP.
        constructor; [|constructor; [|constructor]]; apply P; apply IP; right;
          apply in_map; apply string_in; reflexivity.
Qed.

(** ** Names *)
Lemma builtin_names_facts :
  NoDup (map str builtin_type_names ++ [str "extended_asset"]) /\
  ~ In [] (map str builtin_type_names ++ [str "extended_asset"]).
Proof.
  split.
  - assert (forall l : list bytes, (fix nd l := match l with [] => true
        | x :: l' => negb (existsb (beq x) l') && nd l' end) l = true -> NoDup l) as N.
    { induction l as [|x l IH]; intros H; constructor.
      - intros Hin. apply andb_true_iff in H. destruct H as [H _].
        apply negb_true_iff in H. assert (existsb (beq x) l = true); [|congruence].
        apply existsb_exists. exists x. split; auto. apply beq_refl.
      - apply IH. apply andb_true_iff in H. tauto. }
    apply N. vm_compute. reflexivity.
  - intros H. cbn in H. repeat (destruct H as [H|H]; [discriminate|]). exact H.
Qed.

Lemma NoDup_app {A} (l l' : list A) :
  NoDup (l ++ l') <-> NoDup l /\ NoDup l' /\ (forall x, In x l -> ~ In x l').
Proof.
  induction l as [|x l IH]; cbn.
  - split; [intros H; repeat split; auto; constructor|tauto].
  - split.
    + intros H. inversion H; subst. apply IH in H3. destruct H3 as (A1 & A2 & A3).
      rewrite in_app_iff in H2. split; [constructor; tauto|]. split; [auto|].
      intros y [<-|Hy]; [tauto|auto].
    + intros (A1 & A2 & A3). inversion A1; subst. constructor.
      * rewrite in_app_iff. intros [?|?]; auto. apply (A3 x); auto.
      * apply IH. split; [auto|]. split; auto.
Qed.

Lemma declare_names a :
  (exists m, declare (declarations a) initial_types = Ok m) <->
  (~ In [] (declared_names a) /\ NoDup (declared_names a)).
Proof.
  pose proof (declare_spec (declarations a) initial_types) as S.
  destruct builtin_names_facts as [BN BE].
  assert (declared_names a = (map str builtin_type_names ++ [str "extended_asset"]) ++ map fst (declarations a)) as E
    by (unfold declared_names; rewrite declarations_names, <- !app_assoc; reflexivity).
  rewrite E, in_app_iff, NoDup_app.
  assert (forall n, In n (map str builtin_type_names ++ [str "extended_asset"]) <-> present initial_types n) as Keys.
  { intros n. split; [|apply initial_keys]. pose proof initial_present as IP. intros Hin.
    apply in_app_or in Hin. eapply Forall_forall in IP; [exact IP|]. destruct Hin as [?|[<-|[]]]; [right; assumption|left; reflexivity]. }
  destruct (declare (declarations a) initial_types) as [m|e|w].
  - destruct S as (NE & ND & FA & _). split; [intros _|eauto]. split.
    + intros [H|H]; [auto|]. apply in_map_iff in H. destruct H as (x & Hx & Hin).
      eapply Forall_forall in NE; eauto.
    + split; [auto|]. split; [auto|]. intros x Hx Hin. apply Keys in Hx. apply in_map_iff in Hin.
      destruct Hin as (y & <- & Hin). rewrite Forall_forall in FA. exact (Hx (FA y Hin)).
  - split; [intros [m H]; discriminate|]. intros [NE (_ & ND & Dis)]. exfalso.
    destruct S as [[_ H]|[_ H]]; [tauto|]. apply H. split; auto.
    apply Forall_forall. intros y Hy. destruct (afind (fst y) initial_types) eqn:F; auto. exfalso.
    apply (Dis (fst y)).
    + apply Keys. unfold present. congruence.
    + apply in_map. auto.
  - contradiction.
Qed.

Lemma in_app_NoDup_map {A} (f : A -> bytes) l x y : NoDup (map f l) -> In x l -> In y l -> f x = f y -> x = y.
Proof.
  induction l as [|z l IH]; cbn; [tauto|]. intros H. inversion H; subst.
  intros [<-|Hx] [<-|Hy] E; auto.
  - exfalso. apply H2. rewrite E. now apply in_map.
  - exfalso. apply H2. rewrite <- E. now apply in_map.
Qed.

(** The declarations as a list. *)
Definition decl_list (a : abi_def) : list (bytes * decl) :=
  map (fun s => (str s, DBuiltin)) builtin_type_names ++
  [(str "extended_asset", DStruct [] [(str "quantity", str "asset"); (str "contract", str "name")])] ++
  map (fun t => (new_type_name t, DAlias (td_type t))) (ad_types a) ++
  map (fun s => (sd_name s, DStruct (sd_base s) (field_pairs (sd_fields s)))) (ad_structs a) ++
  map (fun v => (vd_name v, DVariant (vd_types v))) (ad_variants a).
Lemma decl_list_names a : map fst (decl_list a) = declared_names a.
Proof. unfold decl_list, declared_names. rewrite !map_app, !map_map. reflexivity. Qed.
Lemma decl_list_in a n d : declares a n d -> In (n, d) (decl_list a).
Proof.
  unfold decl_list. rewrite !in_app_iff, !in_map_iff. intros [].
  - left. eauto.
  - right. left. cbn. auto.
  - right. right. left. eauto.
  - right. right. right. left. exists s. auto.
  - right. right. right. right. eauto.
Qed.
Lemma names_functional a : NoDup (declared_names a) -> functional a.
Proof.
  rewrite <- decl_list_names. intros ND n d d' D D'.
  apply decl_list_in in D, D'.
  assert ((n, d) = (n, d')) by (eapply in_app_NoDup_map; eauto). congruence.
Qed.

(** ** Completeness of fill *)
Lemma refers_alias_inv a n t s p : functional a -> declares a t (DAlias s) -> refers_to a (S n) t p ->
  refers_to a n s p /\ ~ extension_text a p.
Proof.
  intros F D R. inversion R; subst;
    try (exfalso; match goal with N : ~ declared a _ |- _ => apply N end; eexists; eauto; fail).
  - exfalso. match goal with N : forall s, _ <> DAlias s, D' : declares a p _ |- _ =>
      eapply N; eapply F; eauto end.
  - match goal with D' : declares a t (DAlias ?x) |- _ =>
      assert (DAlias s = DAlias x) as E by (eapply F; eauto); inversion E; subst end. auto.
Qed.
Lemma fill_ok a m k : functional a -> well_formed a 32 -> inv a m -> present m k ->
  exists m', fill 32 m k = Ok m'.
Proof.
  intros F W I P. unfold fill. destruct (deref_present _ _ P) as (x & Hd & Hx). rewrite Hd. cbn [bind].
  destruct (inv_data _ _ I _ _ Hx) as [R _]. destruct x; eauto; cbn in R.
  - assert (exists p, refers_to a 32 k p) as [p Rp].
    { inversion R; subst. apply (aliases_resolve _ _ W t0); auto. }
    destruct (refers_alias_inv _ _ _ _ _ F R Rp) as [R0 N0].
    destruct (get_type_complete a F _ _ _ R0 31%nat m ltac:(lia) I) as [m1 E1].
      pose proof (get_type_good a 31 m t I) as G. rewrite E1 in G. destruct G as (I1 & _ & _ & P1).
      rewrite E1. cbn [bind]. destruct (deref_present _ _ P1) as (y & -> & Hy). cbn [bind].
      rewrite (proj2 (is_extension_spec _ _ _ _ I1 Hy) N0). cbn. eauto.
  - assert (exists fs, struct_fields a 32 k fs) as [fs SF].
    { inversion R; subst.
      - eexists. eapply struct_fields_mono; [apply extended_asset_fields|lia].
      - eapply structs_resolve; eauto. }
    destruct (resolve_struct_complete a F _ _ _ SF 32%nat m s ltac:(lia) I R) as [m1 E1].
    rewrite E1. cbn. eauto.
  - cbn [resolve_variant].
    assert (exists fs, members_refer a 31 (variant_pairs (vd_types v)) fs) as [fs M].
    { inversion R as [| | | |v0 Hv E1 E2]; subst. pose proof (variants_resolve _ _ W v0) as V.
      specialize (fun t => V t Hv). cbn [Nat.sub] in V. rewrite E2 in *.
      clear - V. induction (vd_types v) as [|t l IH]; cbn; [exists []; constructor|].
      destruct (V t ltac:(left; auto)) as [p Hp]. destruct IH as [fs H]; [intros; apply V; right; auto|].
      exists ((t, p) :: fs). constructor; auto. }
    destruct (get_types_complete a _ _ _ F M 31%nat m ltac:(lia) I) as [m1 E1]. rewrite E1. cbn. eauto.
Qed.

Lemma fill_all_ok a ks : functional a -> well_formed a 32 -> forall m, inv a m -> Forall (present m) ks ->
  exists m', fill_all ks m = Ok m'.
Proof.
  intros F W. induction ks as [|k ks IH]; intros m I P; cbn [fill_all]; eauto.
  inversion P; subst. destruct (fill_ok a m k F W I H1) as [m1 E].
  destruct (fill_good a m k I H1) as [G _]. rewrite E in G |- *. destruct G as [I1 E1]. cbn [bind].
  apply IH; auto. eapply Forall_impl; [|exact H2]. apply E1.
Qed.

Lemma keys_present m : Forall (present m) (map fst m).
Proof.
  apply Forall_forall. intros k Hk. unfold present. intros H. apply afind_None in H. contradiction.
Qed.

(** ** convert *)
Lemma inv_faithful a m : functional a -> inv a m -> (forall n, ~ undef_entry m n) -> faithful a m.
Proof.
  intros F I N. split; [apply I|]. intros n d H.
  destruct (inv_data _ _ I _ _ H) as [R P].
  assert (is_def d = false) as Hd.
  { destruct (is_def d) eqn:E; auto. exfalso. apply (N n). exists d. auto. }
  assert (described a n d) as D by (destruct d; cbn in R, Hd |- *; auto; discriminate).
  split; auto.
  assert (forall t p k, refers_to a k t p -> forall s, ~ declares a p (DAlias s)) as NA.
  { intros t p k Hr. induction Hr as [? ? ? D1 N1|? ? ? ? D1 R1 IH1 N1|? ? ? N1|? ? ? N1|? ? ? N1]; intros s0 Ds; auto.
    - eapply N1. eapply F; eauto.
    - eapply IH1; eauto.
    - apply N1. eexists; eauto.
    - apply N1. eexists; eauto.
    - apply N1. eexists; eauto. }
  assert (Forall (fun p => forall s, ~ declares a p (DAlias s)) (pointers d)) as NP.
  { assert (forall k ms fs, members_refer a k ms fs -> Forall (fun p => forall s, ~ declares a p (DAlias s)) (map snd fs)) as MP.
    { intros k ms fs M. induction M as [|x y ms fs [_ Hr] M IH]; cbn; constructor; eauto. }
    destruct d; cbn in D |- *; repeat constructor; try contradiction.
    - destruct D as (s & _ & (k & Dk) & _). eauto.
    - destruct D as (s & _ & _ & (k & Dk) & _). eauto.
    - destruct D as (s & _ & _ & (k & Dk) & _). eauto.
    - destruct D as (s & _ & _ & (k & Dk) & _). eauto.
    - destruct D as (k & SF). clear - SF MP. induction SF; eauto. rewrite map_app. apply Forall_app. eauto.
    - destruct D as (ts & k & _ & M). eauto. }
  clear - P NP I. induction (pointers d) as [|p l IH]; constructor; inversion P; inversion NP; subst; auto.
  unfold present in H1. destruct (afind p m) as [e|] eqn:E; [|congruence]. exists e. split; auto.
  intros q ->. destruct (inv_data _ _ I _ _ E) as [(s & Ds & _) _]. eapply H5; eauto.
Qed.

Lemma faithful_inv a m : faithful a m -> inv a m.
Proof.
  intros [A B]. constructor; [exact A|]. intros n d H. destruct (B n d H) as [D P]. split.
  - destruct d; cbn in D |- *; auto; contradiction.
  - eapply Forall_impl; [|exact P]. cbn. intros p (e & E & _). unfold present. congruence.
Qed.
Lemma faithful_no_def a m n : faithful a m -> ~ undef_entry m n.
Proof.
  intros [_ B] (d & H & Hd). destruct (B n d H) as [D _]. destruct d; cbn in *; try discriminate; contradiction.
Qed.

Lemma convert_total a : match convert a with
  | Ok c => NoDup (declared_names a) /\ ~ In [] (declared_names a) /\ faithful a (abi_types c)
  | Err e => In e load_errors
  | Undef _ => False
  end.
Proof.
  unfold convert. pose proof (declare_names a) as DN.
  pose proof (declare_spec (declarations a) initial_types) as S.
  destruct (declare (declarations a) initial_types) as [m|e|w] eqn:Ed; cbn [bind].
  - pose proof (declared_inv a m Ed) as I.
    destruct (proj1 DN ltac:(eauto)) as [NE ND].
    destruct (fill_all_good a (map fst m) m I (keys_present m)) as [G N].
    destruct (fill_all (map fst m) m) as [m'|e|w]; cbn [good_fill bind] in G |- *; auto.
    destruct G as [I' E]. cbn [abi_types]. split; [auto|]. split; [auto|].
    apply inv_faithful; auto using names_functional.
    intros n U. eapply N; [reflexivity| |exact U].
    apply E in U. destruct U as (d & H & _). apply afind_In in H. apply (in_map fst) in H. exact H.
  - destruct S as [[-> _]|[-> _]]; in_errors.
  - exact S.
Qed.

Lemma convert_ok a : well_formed a 32 -> exists c, convert a = Ok c.
Proof.
  intros W. destruct (proj2 (declare_names a)) as [m Ed];
    [split; [apply (names_not_empty _ _ W)|apply (names_distinct _ _ W)]|].
  unfold convert. rewrite Ed. cbn [bind].
  pose proof (declared_inv a m Ed) as I.
  destruct (fill_all_ok a (map fst m) (names_functional _ (names_distinct _ _ W)) W m I (keys_present m)) as [m' E].
  rewrite E. cbn. eauto.
Qed.

(** Looking up types after loading. *)
Lemma ext_no_def m m' : ext m m' -> (forall n, ~ undef_entry m n) -> forall n, ~ undef_entry m' n.
Proof. intros E H n U. apply (H n). apply E. exact U. Qed.

Lemma get_type_faithful a m d t : functional a -> faithful a m ->
  match get_type d m t with
  | Ok (p, m') => faithful a m' /\ denotes a t p /\ present m' p
  | Err e => In e load_errors
  | Undef _ => False
  end.
Proof.
  intros F Fa. pose proof (get_type_good a d m t (faithful_inv _ _ Fa)) as G.
  destruct (get_type d m t) as [[p m']|e|w]; cbn in G; auto.
  destruct G as (I & E & D & P). split; auto. apply inv_faithful; auto.
  eapply ext_no_def; eauto. intros n. eapply faithful_no_def; eauto.
Qed.

Lemma get_type_runtime a m t p d : functional a -> faithful a m -> (3 <= d)%nat -> denotes a t p ->
  exists m', get_type d m t = Ok (p, m').
Proof.
  intros F Fa Hd [n R]. pose proof (faithful_inv _ _ Fa) as I.
  (* without unresolved definitions, a declared name takes one step *)
  assert (forall d m t p, faithful a m -> (1 <= d)%nat -> declared a t -> denotes a t p ->
            exists m', get_type d m t = Ok (p, m')) as One.
  { clear - F. intros d m t p Fa Hd D [n R].
    pose proof (get_type_good a d m t (faithful_inv _ _ Fa)) as G.
    destruct d as [|d]; [lia|]. cbn [get_type] in G |- *.
    assert (forall q, denotes a t q -> q = p) as U.
    { intros q [k Dk]. eapply denotes_fun; eauto. }
    destruct (afind t m) as [x|] eqn:E.
    - assert (is_def x = false) as Hx.
      { destruct (is_def x) eqn:Y; auto. exfalso. eapply faithful_no_def; eauto. exists x. eauto. }
      destruct x; try discriminate; cbn [good_ptr] in G; destruct G as (_ & _ & Dn & _);
        rewrite (U _ Dn); eauto.
    - exfalso. destruct Fa as [A _]. apply A in D. contradiction. }
  (* one suffix over a declared name takes two *)
  assert (forall d m b p, (2 <= d)%nat -> faithful a m -> denotes a b p -> plain_text a p ->
            exists m', get_type d m b = Ok (p, m')) as Plain.
  { clear - F One. intros d m b p Hd Fa [n R] PL. destruct (afind b m) as [x|] eqn:E.
    - assert (declared a b) as D.
      { inversion R; subst; try (eexists; eassumption);
          (exfalso; destruct PL as (P1 & P2 & P3); (apply P1 + apply P2 + apply P3); solve [split; eauto]; fail). }
      eapply One; eauto; [lia|exists n; auto].
    - assert (~ declared a b) as ND by (intros D; apply (proj1 Fa) in D; contradiction).
      exfalso. destruct PL as (P1 & P2 & P3).
      inversion R; subst; try (apply ND; eexists; eassumption); (apply P1 + apply P2 + apply P3); solve [split; eauto]. }
  inversion R as [n0 t0 d0 D0 N0|n0 t0 s p0 D0 R0 N0|n0 b p0 N0 R0 PL|n0 b p0 N0 R0 PL|n0 b p0 N0 R0 PL]; subst.
  - eapply One; eauto; [lia|eexists; eauto|exists (S n0); auto].
  - eapply One; eauto; [lia|eexists; eauto|exists (S n0); auto].
  - destruct d as [|d]; [lia|]. cbn [get_type].
    destruct (afind (b ++ str "?") m) as [x|] eqn:E.
    + destruct (shape_opt a m _ _ I E) as [q ->]; [split; eauto|]. eauto.
    + rewrite ends_with_app. change 1%nat with (List.length (str "?")). rewrite drop_last_app.
      destruct (Plain d m b p0) as [m1 E1]; auto; [lia|exists n0; auto|]. rewrite E1. cbn [bind].
      pose proof (get_type_good a d m b I) as G. rewrite E1 in G. destruct G as (I1 & _ & _ & P1).
      destruct (deref_present _ _ P1) as (y & -> & Hy). cbn [bind].
      rewrite (proj2 (is_plain_spec _ _ _ _ I1 Hy) PL). cbn. eauto.
  - destruct d as [|d]; [lia|]. cbn [get_type].
    destruct (afind (b ++ str "[]") m) as [x|] eqn:E.
    + destruct (shape_arr a m _ _ I E) as [q ->]; [split; eauto|]. eauto.
    + rewrite (ends_with_false _ (str "?")) by (intros; eauto using suffix_qa).
      rewrite ends_with_app. change 2%nat with (List.length (str "[]")). rewrite drop_last_app.
      destruct (Plain d m b p0) as [m1 E1]; auto; [lia|exists n0; auto|]. rewrite E1. cbn [bind].
      pose proof (get_type_good a d m b I) as G. rewrite E1 in G. destruct G as (I1 & _ & _ & P1).
      destruct (deref_present _ _ P1) as (y & -> & Hy). cbn [bind].
      rewrite (proj2 (is_plain_spec _ _ _ _ I1 Hy) PL). cbn. eauto.
  - destruct d as [|d]; [lia|]. cbn [get_type].
    destruct (afind (b ++ str "$") m) as [x|] eqn:E.
    + destruct (shape_ext a m _ _ I E) as [q ->]; [split; eauto|]. eauto.
    + rewrite (ends_with_false _ (str "?")) by (intros; eauto using suffix_qd).
      rewrite (ends_with_false _ (str "[]")) by (intros; eauto using suffix_da).
      rewrite ends_with_app. change 1%nat with (List.length (str "$")). rewrite drop_last_app.
      assert (exists m1, get_type d m b = Ok (p0, m1)) as [m1 E1].
      { inversion R0 as [n1 t1 d1 D1 N1|n1 t1 s1 p1 D1 R1 N1|n1 c p1 N1 R1 PL1|n1 c p1 N1 R1 PL1|n1 c p1 N1 R1 PL1]; subst.
        - eapply One; eauto; [lia|eexists; eauto|exists (S n1); auto].
        - eapply One; eauto; [lia|eexists; eauto|exists (S n1); auto].
        - destruct d as [|d]; [lia|]. cbn [get_type].
          destruct (afind (c ++ str "?") m) as [x|] eqn:E1.
          + destruct (shape_opt a m _ _ I E1) as [q ->]; [split; eauto|]. eauto.
          + rewrite ends_with_app. change 1%nat with (List.length (str "?")). rewrite drop_last_app.
            destruct (One d m c p1) as [m1 E2]; auto; [lia| |exists n1; auto|].
            { destruct PL1 as (P1 & P2 & P3).
              inversion R1; subst; try (eexists; eassumption); exfalso;
                (apply P1 + apply P2 + apply P3); solve [split; eauto]. }
            rewrite E2. cbn [bind].
            pose proof (get_type_good a d m c I) as G. rewrite E2 in G. destruct G as (I1 & _ & _ & P1).
            destruct (deref_present _ _ P1) as (y & -> & Hy). cbn [bind].
            rewrite (proj2 (is_plain_spec _ _ _ _ I1 Hy) PL1). cbn. eauto.
        - destruct d as [|d]; [lia|]. cbn [get_type].
          destruct (afind (c ++ str "[]") m) as [x|] eqn:E1.
          + destruct (shape_arr a m _ _ I E1) as [q ->]; [split; eauto|]. eauto.
          + rewrite (ends_with_false _ (str "?")) by (intros; eauto using suffix_qa).
            rewrite ends_with_app. change 2%nat with (List.length (str "[]")). rewrite drop_last_app.
            destruct (One d m c p1) as [m1 E2]; auto; [lia| |exists n1; auto|].
            { destruct PL1 as (P1 & P2 & P3).
              inversion R1; subst; try (eexists; eassumption); exfalso;
                (apply P1 + apply P2 + apply P3); solve [split; eauto]. }
            rewrite E2. cbn [bind].
            pose proof (get_type_good a d m c I) as G. rewrite E2 in G. destruct G as (I1 & _ & _ & P1).
            destruct (deref_present _ _ P1) as (y & -> & Hy). cbn [bind].
            rewrite (proj2 (is_plain_spec _ _ _ _ I1 Hy) PL1). cbn. eauto.
        - exfalso. apply PL. split; eauto. }
      rewrite E1. cbn [bind].
      pose proof (get_type_good a d m b I) as G. rewrite E1 in G. destruct G as (I1 & _ & _ & P1).
      destruct (deref_present _ _ P1) as (y & -> & Hy). cbn [bind].
      rewrite (proj2 (is_extension_spec _ _ _ _ I1 Hy) PL). cbn. eauto.
Qed.
