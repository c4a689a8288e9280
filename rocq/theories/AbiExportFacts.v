(** * AbiExportFacts: a table of types and the definition exported from it (proofs only) *)
From Coq Require Import Permutation.
From Verif Require Import Base TypedBin Json JsonSpec Abi AbiSpec AbiFacts AbiLoad AbiScalar AbiValue AbiBinSound TypedJson TypedJsonFacts AddType AddTypeSpec AddTypeFacts AddTypeRun AbiExportSpec.

(** ** Keys are unique *)
Definition keys_ok (m : amap) : Prop := NoDup (map fst m).
Lemma ainsert_keys k d m : Permutation (map fst (ainsert k d m)) (k :: map fst m).
Proof.
  induction m as [|[k' d'] m IH]; cbn [ainsert map fst]; [apply Permutation_refl|]. destruct (lex_ltb k k'); cbn [map fst]; [apply Permutation_refl|].
  eapply perm_trans; [apply perm_skip, IH|]. apply perm_swap.
Qed.
Lemma afind_key k m : afind k m = None <-> ~ In k (map fst m).
Proof.
  induction m as [|[k' d'] m IH]; cbn [afind map fst]; [split; [intros _ []|reflexivity]|]. destruct (beq k k') eqn:B.
  - apply beq_eq in B. subst. split; [discriminate|]. intros H. exfalso. apply H. now left.
  - apply beq_neq in B. rewrite IH. split; [intros H [X|X]; [congruence|auto]|intros H X; apply H; now right].
Qed.
Lemma emplace_keys k d m : keys_ok m -> keys_ok (fst (try_emplace k d m)).
Proof.
  intros H. unfold try_emplace. destruct (afind k m) eqn:F; [exact H|]. cbn [fst]. unfold keys_ok. eapply Permutation_NoDup; [symmetry; apply ainsert_keys|].
  constructor; [now apply afind_key|exact H].
Qed.
Lemma aset_map k d m : map fst (aset k d m) = map fst m.
Proof. induction m as [|[k' d'] m IH]; cbn [aset map fst]; [reflexivity|]. destruct (beq k k'); cbn [map fst]; congruence. Qed.
Lemma aset_keys k d m : keys_ok m -> keys_ok (aset k d m).
Proof. unfold keys_ok. now rewrite aset_map. Qed.
Lemma in_afind k d m : keys_ok m -> In (k, d) m <-> afind k m = Some d.
Proof.
  intros K. split; [|apply afind_In]. unfold keys_ok in K. induction m as [|[k' d'] m IH]; [intros []|]. cbn [map fst] in K. apply NoDup_cons_iff in K as [N K]. cbn [afind].
  intros [X|X].
  - assert (k' = k /\ d' = d) as [-> ->] by (split; congruence). now rewrite beq_refl.
  - destruct (beq k k') eqn:B; [|auto]. apply beq_eq in B. subst k'. exfalso. apply N. change k with (fst (k, d)). now apply in_map.
Qed.
Lemma get_type_keys : forall d m n p m', keys_ok m -> get_type d m n = Ok (p, m') -> keys_ok m'.
Proof.
  induction d as [|d IH]; intros m n p m' K H; [discriminate|]. cbn [get_type] in H.
  destruct (afind n m) as [[]|]; try (injection H as <- <-; exact K).
  - apply bind_Ok in H as ([q m1] & G & H). apply bind_Ok in H as (x & _ & H). apply bind_Ok in H as (y & _ & H). injection H as <- <-. apply aset_keys. eauto.
  - destruct (ends_with n (str "?")); [|destruct (ends_with n (str "[]")); [|destruct (ends_with n (str "$")); [|discriminate]]];
      apply bind_Ok in H as ([q m1] & G & H); apply bind_Ok in H as (x & _ & H); apply bind_Ok in H as (y & _ & H); injection H as <- <-; apply emplace_keys; eauto.
Qed.
Lemma get_types_keys d : forall l m r m', keys_ok m -> get_types d l m = Ok (r, m') -> keys_ok m'.
Proof.
  induction l as [|[n t] l IH]; intros m r m' K H; cbn [get_types] in H; [injection H as <- <-; exact K|].
  apply bind_Ok in H as ([q m1] & G & H). apply bind_Ok in H as ([r' m2] & G2 & H). injection H as <- <-. eapply IH; [|exact G2]. eapply get_type_keys; eauto.
Qed.
Lemma resolve_struct_keys : forall d m s r m', keys_ok m -> resolve_struct d m s = Ok (r, m') -> keys_ok m'.
Proof.
  induction d as [|d IH]; intros m s r m' K H; [discriminate|]. cbn [resolve_struct] in H. apply bind_Ok in H as ([bf m1] & G & H).
  apply bind_Ok in H as ([own m2] & G2 & H). injection H as <- <-. eapply get_types_keys; [|exact G2].
  destruct (sd_base s); [injection G as <- <-; exact K|]. apply bind_Ok in G as ([base m3] & G & G'). apply get_type_keys in G; [|exact K].
  apply bind_Ok in G' as (x & _ & G'). apply bind_Ok in G' as (m4 & Q & G'). apply bind_Ok in G' as (y & _ & G').
  assert (m1 = m4) by (destruct y; try discriminate; congruence). subst m4. destruct x; try (injection Q as <-; exact G).
  apply bind_Ok in Q as ([fs m5] & Q & Q'). injection Q' as <-. apply aset_keys. eapply IH; eauto.
Qed.
Lemma fill_keys d m k m' : keys_ok m -> fill d m k = Ok m' -> keys_ok m'.
Proof.
  intros K H. unfold fill in H. apply bind_Ok in H as (x & _ & H). destruct x; try (injection H as <-; exact K).
  - destruct d; [discriminate|]. apply bind_Ok in H as ([q m1] & G & H). apply bind_Ok in H as (y & _ & H). apply bind_Ok in H as (z & _ & H). injection H as <-.
    apply aset_keys. eapply get_type_keys; eauto.
  - apply bind_Ok in H as ([fs m1] & G & H). injection H as <-. apply aset_keys. eapply resolve_struct_keys; eauto.
  - apply bind_Ok in H as ([fs m1] & G & H). injection H as <-. apply aset_keys. destruct d; [discriminate|]. eapply get_types_keys; eauto.
Qed.
Lemma fill_all_keys : forall ks m m', keys_ok m -> fill_all ks m = Ok m' -> keys_ok m'.
Proof.
  induction ks as [|k ks IH]; intros m m' K H; cbn [fill_all] in H; [injection H as <-; exact K|]. apply bind_Ok in H as (m1 & G & H). eapply IH; [|exact H]. eapply fill_keys; eauto.
Qed.
Lemma declare_keys : forall l m m', keys_ok m -> declare l m = Ok m' -> keys_ok m'.
Proof.
  induction l as [|[k d] l IH]; intros m m' K H; cbn [declare] in H; [injection H as <-; exact K|]. apply bind_Ok in H as (x & _ & H).
  pose proof (emplace_keys k d m K) as K'. destruct (try_emplace k d m) as [m1 ins]. cbn [fst] in K'. apply bind_Ok in H as (y & _ & H). eauto.
Qed.
Lemma initial_keys_ok : keys_ok initial_types.
Proof.
  unfold initial_types. apply emplace_keys. assert (G : forall l m, keys_ok m -> keys_ok (emplace_builtins l m)).
  { induction l as [|b l IH]; intros m K; [exact K|]. cbn [emplace_builtins]. apply IH. now apply emplace_keys. }
  apply G. constructor.
Qed.
Lemma convert_keys a c : convert a = Ok c -> keys_ok (abi_types c).
Proof.
  unfold convert. intros H. apply bind_Ok in H as (m & D & H). apply bind_Ok in H as (m' & F & H). injection H as <-. cbn [abi_types].
  eapply fill_all_keys; [|exact F]. eapply declare_keys; [|exact D]. apply initial_keys_ok.
Qed.
Lemma add_run_keys : forall t m, keys_ok m -> keys_ok (fst (add_run t m)).
Proof.
  assert (Wr : forall c kind k d e, (forall m, keys_ok m -> keys_ok (fst (add_run c m))) -> forall m, keys_ok m ->
    keys_ok (fst (run_then (add_run c m) (fun p m => add_wrapper kind (k p) (d p) (e p) m)))).
  { intros c kind k d e IH m K. specialize (IH m K). destruct (add_run c m) as [m1 [p|x|w]]; cbn [fst run_then] in *; try exact IH. unfold add_wrapper.
    destruct (bind _ _); cbn [fst]; [now apply emplace_keys|exact IH|exact IH]. }
  induction t as [b|t IH|t IH|tys IH|nm fs IH|a b IHa IHb|t IH| |t IH|names|k] using jty_ind'; intros m K; try exact K.
  - cbn [add_run]. destruct (scalar_compiles b); exact K.
  - exact (Wr t _ (fun _ => _) _ (fun e => e) IH m K).
  - exact (Wr t _ (fun _ => _) _ (fun e => e) IH m K).
  - cbn [add_run]. match goal with |- context [run_then (?g tys m) _] => set (go := g) end.
    assert (L : forall ts, (forall t, In t ts -> In t tys) -> forall m, keys_ok m -> keys_ok (fst (go ts m))).
    { induction ts as [|t ts IHt]; intros Hs y Hy; [exact Hy|]. cbn [go]. fold go. rewrite Forall_forall in IH. pose proof (IH t (Hs t (or_introl eq_refl)) y Hy) as X.
      destruct (add_run t y) as [m2 [p|e|w]]; cbn [fst run_then] in *; [|exact X|exact X]. specialize (IHt (fun t H => Hs t (or_intror H)) m2 X).
      destruct (go ts m2) as [m3 [ps|e|w]]; cbn [fst run_then] in *; exact IHt. }
    specialize (L tys (fun t H => H) m K). destruct (go tys m) as [m2 [ps|e|w]]; cbn [fst run_then] in *; [now apply emplace_keys|exact L|exact L].
  - cbn [add_run]. pose proof (emplace_keys nm (AStruct []) m K) as H0. destruct (try_emplace nm (AStruct []) m) as [x0 ins]. cbn [fst] in H0. destruct ins; [|exact H0].
    match goal with |- context [fst (?g fs x0)] => set (go := g) end.
    assert (L : forall l, (forall f, In f l -> In f fs) -> forall m, keys_ok m -> keys_ok (fst (go l m))).
    { induction l as [|f l IHl]; intros Hs y Hy; [exact Hy|]. cbn [go]. fold go. rewrite Forall_forall in IH. pose proof (IH f (Hs f (or_introl eq_refl)) y Hy) as X.
      destruct (add_run (snd f) y) as [m2 [p|e|w]]; cbn [fst run_then] in *; [|exact X|exact X]. unfold push_field. destruct (afind nm m2) as [d|] eqn:E; [|exact X].
      destruct d; cbn [fst]; try exact X. apply IHl; [intros g Hg; apply Hs; now right|]. now apply aset_keys. }
    apply (L fs (fun f H => H)); exact H0.
  - exact (Wr t _ _ _ (fun e => e) IH m K).
Qed.

(** ** Tables whose entries carry the names they should *)
Definition suffixed (d : adata) : option (bytes * bytes) :=
  match d with
  | AOptional q => Some (str "?", q)
  | AArray q => Some (str "[]", q)
  | AExtension q => Some (str "$", q)
  | _ => None
  end.
Definition ext_asset : adata := AStruct [(str "quantity", str "asset"); (str "contract", str "name")].
Definition reaches (m : amap) (b q : bytes) : Prop := b = q \/ afind b m = Some (AAlias q).
Record canon (m : amap) : Prop := {
  cn_keys : keys_ok m;
  cn_sound : sound_map m;
  cn_scalars : scalars m;
  cn_builtin : forall k b, afind k m = Some (ABuiltin b) -> k = builtin_name b;
  cn_asset : afind (str "extended_asset") m = Some ext_asset;
  cn_alias : forall k p e, afind k m = Some (AAlias p) -> afind p m = Some e -> is_extension e = false;
  cn_suffix : forall k d x q, afind k m = Some d -> suffixed d = Some (x, q) -> exists b, k = b ++ x /\ reaches m b q
}.
Lemma reaches_mono m m' b q : mono m m' -> reaches m b q -> reaches m' b q.
Proof. intros M [H|H]; [now left|right; auto]. Qed.

Lemma convert_canon a c : convert a = Ok c -> canon (abi_types c).
Proof.
  intros H. pose proof (convert_total a) as T. rewrite H in T. destruct T as (ND & _ & Fa). pose proof (names_functional a ND) as F.
  destruct (convert_scalars a c H) as [S Sc]. pose proof Fa as [A B]. constructor; auto.
  - now apply convert_keys in H.
  - intros k b E. apply B in E as [[E _] _]. exact E.
  - pose proof (declares_extended_asset a) as D. destruct (afind (str "extended_asset") (abi_types c)) as [d|] eqn:E; [|exfalso; eapply A; [|exact E]; eexists; eauto].
    destruct (B _ _ E) as [Q _]. destruct d; cbn [described] in Q; try contradiction;
      try (repeat match goal with X : exists _, _ |- _ => destruct X as [? X] | X : _ /\ _ |- _ => destruct X as [? X] end;
           first [match goal with X : declares a _ _ |- _ => pose proof (F _ _ _ D X); discriminate end
                 |match goal with X : ~ declared a _ |- _ => exfalso; apply X; eexists; exact D end]; fail).
    destruct Q as (k & Q). inversion Q as [n name flds own D1 M|n name base flds b inh own NB D1 R SF M]; subst; pose proof (F _ _ _ D D1) as X; [|congruence].
      injection X as <-. unfold ext_asset.
      assert (Bu : forall k t q b, t = builtin_name b -> refers_to a k t q -> q = t).
      { intros k t q b -> R. inversion R; subst; auto; exfalso.
        - match goal with X : declares a (builtin_name b) _ |- _ => pose proof (F _ _ _ X (declares_builtin a _ (builtin_in_list b))); discriminate end. }
      unfold members_refer in M. inversion M as [|x1 y1 l1 l1' [N1 R1] M1]; subst. inversion M1 as [|x2 y2 l2 l2' [N2 R2] M2]; subst. inversion M2; subst.
      destruct y1 as [a1 b1], y2 as [a2 b2]. cbn [fst snd] in *. subst a1 a2.
      apply (Bu _ (str "asset") _ B_asset) in R1; [|reflexivity]. apply (Bu _ (str "name") _ B_name) in R2; [|reflexivity]. subst b1 b2. reflexivity.
  - intros k p e E Ep. destruct (B _ _ E) as [(s & _ & _ & N) _]. eapply is_extension_spec; [apply faithful_inv; exact Fa|exact Ep|exact N].
  - assert (G : forall b q, denotes a b q -> reaches (abi_types c) b q).
    { intros b q [n R]. inversion R as [n0 t0 d0 D0 N0|n0 t0 s p0 D0 R0 N0|n0 b0 p0 N0 R0 PL|n0 b0 p0 N0 R0 PL|n0 b0 p0 N0 R0 PL]; subst; try (now left). right.
      destruct (afind b (abi_types c)) as [d|] eqn:E; [|exfalso; eapply A; [|exact E]; eexists; eauto]. destruct (B _ _ E) as [Q _].
      destruct d; cbn [described] in Q; try contradiction;
        try (repeat match goal with X : exists _, _ |- _ => destruct X as [? X] | X : _ /\ _ |- _ => destruct X as [? X] end;
             first [match goal with X : ~ declared a _ |- _ => exfalso; apply X; eexists; exact D0 end
                   |match goal with X : declares a _ (DVariant _) |- _ => pose proof (F _ _ _ D0 X); discriminate end
                   |match goal with X : declares a _ DBuiltin |- _ => pose proof (F _ _ _ D0 X); discriminate end]; fail).
      - destruct Q as (s' & D' & [k' R'] & _). pose proof (F _ _ _ D0 D') as X. injection X as <-. f_equal. f_equal. eapply denotes_fun; eauto.
      - destruct Q as (k & Q). inversion Q; subst; match goal with X : declares a _ (DStruct _ _) |- _ => pose proof (F _ _ _ D0 X); discriminate end. }
    intros k d x q E X. destruct (B _ _ E) as [Q _]. destruct d; try discriminate X; injection X as <- <-; destruct Q as (b & -> & _ & Dn & _); exists b; auto.
Qed.

Lemma canon_insert m k d : canon m -> afind k m = None -> entry_ok m d ->
  (forall b, d <> ABuiltin b) -> (forall p, d <> AAlias p) -> (forall x q, suffixed d = Some (x, q) -> exists b, k = b ++ x /\ reaches m b q) ->
  canon (fst (try_emplace k d m)).
Proof.
  intros [K S Sc Bu As Al Su] N D NB NA Sx. pose proof (emplace_mono k d m) as M. constructor.
  - now apply emplace_keys.
  - now apply emplace_sound.
  - intros b. apply M, Sc.
  - intros k' b H. rewrite (afind_emplace k d m k' N) in H. destruct (beq k' k); [exfalso; eapply NB; injection H as H; exact H|eauto].
  - now apply M.
  - intros k' p e H He. rewrite (afind_emplace k d m k' N) in H. destruct (beq k' k) eqn:B; [exfalso; eapply NA; injection H as H; exact H|].
    destruct (sm_ptr m S k' _ p H (or_introl eq_refl)) as (e' & He' & _). pose proof (M _ _ He') as X. eapply Al; [exact H|]. congruence.
  - intros k' d' x q H X. rewrite (afind_emplace k d m k' N) in H. destruct (beq k' k) eqn:B.
    + apply beq_eq in B. subst k'. assert (d' = d) by congruence. subst d'. destruct (Sx x q X) as (b & Eb & R). exists b. split; [exact Eb|]. eapply reaches_mono; eauto.
    + destruct (Su _ _ _ _ H X) as (b & Eb & R). exists b. split; [exact Eb|]. eapply reaches_mono; eauto.
Qed.
Lemma ends_with_split s x : ends_with s x = true -> s = drop_last (List.length x) s ++ x.
Proof.
  unfold ends_with, drop_last. intros H. apply andb_true_iff in H as [L E]. apply beq_eq in E.
  rewrite <- (firstn_skipn (List.length s - List.length x) s) at 1. now rewrite E.
Qed.
Lemma get_type_canon : forall d m n p m', canon m -> get_type d m n = Ok (p, m') -> canon m' /\ reaches m' n p.
Proof.
  induction d as [|d IH]; intros m n p m' C H; [discriminate|]. cbn [get_type] in H. destruct (afind n m) as [e|] eqn:F.
  - pose proof (sm_nodef m (cn_sound m C) _ _ F) as X.
    destruct e; try discriminate X; injection H as <- <-; (split; [exact C|]); try (now left). now right.
  - assert (Step : forall x nm (kind : adata -> bool) (mk : bytes -> adata),
      (forall m1 q x, afind q m1 = Some x -> kind x = false -> (forall r, x <> AAlias r) -> entry_ok m1 (mk q)) -> (forall q, suffixed (mk q) = Some (x, q)) -> n = nm ++ x ->
      (let* (base, m1) := get_type d m nm in let* x := deref base m1 in let* _ := check (negb (kind x)) E_invalid_nesting in
       Ok (n, fst (try_emplace n (mk base) m1))) = Ok (p, m') -> canon m' /\ reaches m' n p).
    { intros x nm kind mk Hm Hx En Q. apply bind_Ok in Q as ([b m1] & G & Q). destruct (IH _ _ _ _ C G) as (C1 & R1).
      destruct (get_type_sound _ _ _ _ _ (cn_sound m C) G) as (_ & M1 & N1 & y & Hy & Ny).
      unfold deref in Q. rewrite Hy in Q. cbn [bind] in Q. destruct (kind y) eqn:K; [discriminate|]. cbn [negb check bind] in Q.
      assert (p = n /\ m' = fst (try_emplace n (mk b) m1)) as [-> ->] by (split; congruence). split; [|now left].
      destruct (afind n m1) as [z|] eqn:Fn; [unfold try_emplace; rewrite Fn; exact C1|]. apply canon_insert; auto; [eapply Hm; eauto| | |].
      - intros b' Eb. pose proof (Hx b) as Y. rewrite Eb in Y. discriminate.
      - intros b' Eb. pose proof (Hx b) as Y. rewrite Eb in Y. discriminate.
      - intros x' q Y. rewrite Hx in Y. injection Y as <- <-. eauto. }
    destruct (ends_with n (str "?")) eqn:E1; [|destruct (ends_with n (str "[]")) eqn:E2; [|destruct (ends_with n (str "$")) eqn:E3; [|discriminate]]].
    + apply (ends_with_split n (str "?")) in E1. refine (Step (str "?") _ is_optional_array_extension AOptional _ (fun q => eq_refl) E1 H).
      intros m1 q x Hx K Na. split; [reflexivity|]. split; [intros y [<-|[]]; eauto|]. intros e He. congruence.
    + apply (ends_with_split n (str "[]")) in E2. refine (Step (str "[]") _ is_optional_array_extension AArray _ (fun q => eq_refl) E2 H).
      intros m1 q x Hx K Na. split; [reflexivity|]. split; [intros y [<-|[]]; eauto|]. intros e He. congruence.
    + apply (ends_with_split n (str "$")) in E3. refine (Step (str "$") _ is_extension AExtension _ (fun q => eq_refl) E3 H).
      intros m1 q x Hx K Na. split; [reflexivity|]. split; [intros y [<-|[]]; eauto|]. intros e He. congruence.
Qed.
Lemma get_type_table_canon : forall d m n, canon m -> canon (get_type_table d m n).
Proof.
  induction d as [|d IH]; intros m n C; [exact C|]. cbn [get_type_table].
  destruct (get_type (S d) m n) as [[p m']|e|w] eqn:G; [now destruct (get_type_canon _ _ _ _ _ C G)| |].
  all: destruct (afind n m) as [x|] eqn:F;
    [pose proof (sm_nodef m (cn_sound m C) _ _ F) as X; destruct x; try discriminate X; exact C
    |destruct (ends_with n (str "?")); [auto|]; destruct (ends_with n (str "[]")); [auto|]; destruct (ends_with n (str "$")); [auto|]; exact C].
Qed.
Lemma addable_part : forall t, addable t = true -> forall u, In u (parts t) -> addable u = true.
Proof.
  induction t as [b|t IH|t IH|tys IH|nm fs IH|a b IHa IHb|t IH| |t IH|names|k] using jty_ind'; intros A u Hu;
    (apply parts_down in Hu as [->|(c & Hc & Hu)]; [exact A|]); cbn [children] in Hc; try (destruct Hc; fail).
  - destruct Hc as [<-|[]]. cbn [addable] in A. apply andb_true_iff in A as [_ A]. eauto.
  - destruct Hc as [<-|[]]. cbn [addable] in A. apply andb_true_iff in A as [_ A]. eauto.
  - cbn [addable] in A. rewrite forallb_forall in A. rewrite Forall_forall in IH. specialize (A c Hc). apply andb_true_iff in A as [_ A]. eauto.
  - apply in_map_iff in Hc as (f & <- & Hf). cbn [addable] in A. rewrite forallb_forall in A. rewrite Forall_forall in IH. eauto.
  - destruct Hc as [<-|[]]. eauto.
Qed.
Lemma named_name t : named t = true -> abi_name t = type_name t. Proof. destruct t; intros H; try reflexivity. discriminate. Qed.
Lemma add_canon t m m' r : canon m -> addable t = true -> compatible m t -> add_run t m = (m', r) -> canon m'.
Proof.
  intros C A Co H. pose proof C as [K S Sc Bu As Al Su]. pose proof (add_run_good t m S Sc A Co) as G. rewrite H in G. destruct G as (I & [Mo Gr] & _).
  assert (O : forall k d, afind k m' = Some d -> afind k m = Some d \/ exists u, In u (parts t) /\ k = abi_name u /\ partial u d).
  { intros k d Hd. destruct (afind k m) as [d'|] eqn:F; [left; rewrite (Mo _ _ F) in Hd; congruence|]. right. destruct (Gr k F) as (u & Hu & En); [congruence|].
    exists u. split; [exact Hu|]. split; [now symmetry|]. subst k. exact (w_agree _ _ I u d Hu Hd). }
  constructor.
  - pose proof (add_run_keys t m K) as X. rewrite H in X. exact X.
  - exact (w_sound _ _ I).
  - exact (w_scalars _ _ I).
  - intros k b Hk. destruct (O _ _ Hk) as [Hk'|(u & Hu & -> & [Es|Es])]; [eauto| |destruct u; try contradiction; destruct Es as (? & _ & Es); discriminate Es]. pose proof (addable_part t A u Hu) as Au.
    destruct u; try discriminate Au; try discriminate Es; cbn [shape] in Es; injection Es as ->; reflexivity.
  - now apply Mo.
  - intros k q e Hk He. destruct (O _ _ Hk) as [Hk'|(u & Hu & -> & [Es|Es])]; [|destruct u; discriminate Es|destruct u; try contradiction; destruct Es as (? & _ & Es); discriminate Es].
    destruct (sm_ptr m S k _ q Hk' (or_introl eq_refl)) as (e' & He' & _). pose proof (Mo _ _ He') as X. eapply Al; [exact Hk'|]. congruence.
  - intros k d x q Hk X. destruct (O _ _ Hk) as [Hk'|(u & Hu & -> & [->|Es])]; [| |destruct u; try contradiction; destruct Es as (? & _ & ->); discriminate X].
    + destruct (Su _ _ _ _ Hk' X) as (b & Eb & R). exists b. split; [exact Eb|]. eapply reaches_mono; eauto.
    + pose proof (addable_part t A u Hu) as Au. destruct u; try discriminate X; cbn [shape suffixed] in X; injection X as <- <-; cbn [addable] in Au; try (apply andb_true_iff in Au as [Nu _]);
        eexists; (split; [reflexivity|left]); try reflexivity; symmetry; now apply named_name.
Qed.
Lemma table_canon m : table m -> canon m.
Proof.
  induction 1 as [a c H|m n T C|m t m' r T C A Co H]; [eapply convert_canon; eauto|now apply get_type_table_canon|eapply add_canon; eauto].
Qed.

(** ** The exported definition *)
Definition alias_of (e : bytes * adata) : list type_def := match snd e with AAlias p => [TypeDef (fst e) p] | _ => [] end.
Definition struct_of (e : bytes * adata) : list struct_def :=
  match snd e with
  | AStruct fs => if beq (fst e) (str "extended_asset") then [] else [StructDef (fst e) [] (map (fun f => FieldDef (fst f) (snd f)) fs)]
  | _ => []
  end.
Definition variant_of (e : bytes * adata) : list variant_def := match snd e with AVariant fs => [VariantDef (fst e) (map snd fs)] | _ => [] end.
Definition export (m : amap) : abi_def :=
  AbiDef (str "eosio::abi/1.0") (flat_map alias_of m) (flat_map struct_of m) [] [] [] [] [] (flat_map variant_of m).
Lemma to_abi_defs_eq m : (forall k d, In (k, d) m -> is_def d = false) -> forall v t s ac tb cl er ex va,
  to_abi_defs m (AbiDef v t s ac tb cl er ex va) = Ok (AbiDef v (t ++ flat_map alias_of m) (s ++ flat_map struct_of m) ac tb cl er ex (va ++ flat_map variant_of m)).
Proof.
  induction m as [|[k d] m IH]; intros N v t s ac tb cl er ex va; [cbn [to_abi_defs flat_map]; now rewrite !app_nil_r|].
  assert (Nd : is_def d = false) by (eapply N; left; reflexivity). assert (N' : forall k d, In (k, d) m -> is_def d = false) by (intros; eapply N; right; eauto).
  cbn [to_abi_defs flat_map]. destruct d; try discriminate Nd; unfold to_abi_def, alias_of, struct_of, variant_of; cbn [fst snd bind app];
    try (destruct (beq k (str "extended_asset")); cbn [bind app]);
    unfold add_types, add_structs, add_variants; cbn [ad_version ad_types ad_structs ad_actions ad_tables ad_clauses ad_errors ad_extensions ad_variants];
    (rewrite (IH N'); rewrite <- ?app_assoc; reflexivity).
Qed.
Lemma convert_back_eq c : canon (abi_types c) -> convert_back c = Ok (export (abi_types c)).
Proof.
  intros C. unfold convert_back, empty_def. rewrite to_abi_defs_eq; [reflexivity|]. intros k d H. apply (in_afind k d _ (cn_keys _ C)) in H. exact (sm_nodef _ (cn_sound _ C) _ _ H).
Qed.

Definition decl_of (d : adata) : option decl :=
  match d with
  | ABuiltin _ => Some DBuiltin
  | AAlias p => Some (DAlias p)
  | AStruct fs => Some (DStruct [] fs)
  | AVariant fs => Some (DVariant (map snd fs))
  | _ => None
  end.
Lemma builtin_of_name s : In s builtin_type_names -> exists b, str s = builtin_name b.
Proof.
  intros H. assert (F : Forall (fun s => exists b, str s = builtin_name b) builtin_type_names).
  { unfold builtin_type_names.
    repeat first [apply Forall_nil | apply Forall_cons];
      first [exists B_bool; reflexivity|exists B_int8; reflexivity|exists B_uint8; reflexivity|exists B_int16; reflexivity|exists B_uint16; reflexivity
            |exists B_int32; reflexivity|exists B_uint32; reflexivity|exists B_int64; reflexivity|exists B_uint64; reflexivity|exists B_int128; reflexivity
            |exists B_uint128; reflexivity|exists B_varuint32; reflexivity|exists B_varint32; reflexivity|exists B_float32; reflexivity|exists B_float64; reflexivity
            |exists B_float128; reflexivity|exists B_time_point; reflexivity|exists B_time_point_sec; reflexivity|exists B_block_timestamp; reflexivity
            |exists B_name; reflexivity|exists B_bytes; reflexivity|exists B_string; reflexivity|exists B_checksum160; reflexivity|exists B_checksum256; reflexivity
            |exists B_checksum512; reflexivity|exists B_public_key; reflexivity|exists B_private_key; reflexivity|exists B_signature; reflexivity
            |exists B_symbol; reflexivity|exists B_symbol_code; reflexivity|exists B_asset; reflexivity]. }
  rewrite Forall_forall in F. auto.
Qed.
Lemma fields_back fs : map (fun f => (fd_name f, fd_type f)) (map (fun f : bytes * bytes => FieldDef (fst f) (snd f)) fs) = fs.
Proof. rewrite map_map. rewrite <- (map_id fs) at 2. apply map_ext. intros [a b]. reflexivity. Qed.
Section Export.
  Context (m : amap) (C : canon m).
  Lemma in_alias t : In t (flat_map alias_of m) <-> afind (new_type_name t) m = Some (AAlias (td_type t)).
  Proof.
    rewrite in_flat_map. split.
    - intros ([k d] & H & T). unfold alias_of in T. cbn [fst snd] in T. destruct d; try (destruct T; fail). destruct T as [<-|[]]. cbn [new_type_name td_type]. now apply (in_afind _ _ _ (cn_keys m C)).
    - intros H. apply (in_afind _ _ _ (cn_keys m C)) in H. eexists. split; [exact H|]. unfold alias_of. cbn [fst snd]. left. now destruct t.
  Qed.
  Lemma in_struct s : In s (flat_map struct_of m) <->
    exists fs, afind (sd_name s) m = Some (AStruct fs) /\ sd_name s <> str "extended_asset" /\ s = StructDef (sd_name s) [] (map (fun f => FieldDef (fst f) (snd f)) fs).
  Proof.
    rewrite in_flat_map. split.
    - intros ([k d] & H & T). unfold struct_of in T. cbn [fst snd] in T. destruct d; try (destruct T; fail). destruct (beq k (str "extended_asset")) eqn:B; [destruct T|].
      apply beq_neq in B. destruct T as [<-|[]]. cbn [sd_name]. eexists. split; [apply (in_afind _ _ _ (cn_keys m C)); exact H|]. split; [exact B|reflexivity].
    - intros (fs & H & N & E). apply (in_afind _ _ _ (cn_keys m C)) in H. eexists. split; [exact H|]. unfold struct_of. cbn [fst snd].
      destruct (beq (sd_name s) (str "extended_asset")) eqn:B; [apply beq_eq in B; contradiction|]. left. now symmetry.
  Qed.
  Lemma in_variant v : In v (flat_map variant_of m) <-> exists fs, afind (vd_name v) m = Some (AVariant fs) /\ v = VariantDef (vd_name v) (map snd fs).
  Proof.
    rewrite in_flat_map. split.
    - intros ([k d] & H & T). unfold variant_of in T. cbn [fst snd] in T. destruct d; try (destruct T; fail). destruct T as [<-|[]]. cbn [vd_name]. eexists. split; [apply (in_afind _ _ _ (cn_keys m C)); exact H|reflexivity].
    - intros (fs & H & E). apply (in_afind _ _ _ (cn_keys m C)) in H. eexists. split; [exact H|]. unfold variant_of. cbn [fst snd]. left. now symmetry.
  Qed.
  Lemma export_declares k D : declares (export m) k D <-> exists d, afind k m = Some d /\ decl_of d = Some D.
  Proof.
    split.
    - intros H. inversion H as [s Hs|X|t Ht|s Hs|v Hv]; subst.
      + destruct (builtin_of_name s Hs) as [b ->]. exists (ABuiltin b). split; [apply (cn_scalars m C)|reflexivity].
      + exists ext_asset. split; [apply (cn_asset m C)|reflexivity].
      + cbn [ad_types export] in Ht. apply in_alias in Ht. eexists. split; [exact Ht|reflexivity].
      + cbn [ad_structs export] in Hs. apply in_struct in Hs as (fs & Hf & _ & E). exists (AStruct fs). split; [exact Hf|]. cbn [decl_of]. rewrite E. cbn [sd_base sd_fields]. now rewrite fields_back.
      + cbn [ad_variants export] in Hv. apply in_variant in Hv as (fs & Hf & E). exists (AVariant fs). split; [exact Hf|]. rewrite E. reflexivity.
    - intros (d & H & E). destruct d as [b| | | |p|q|q|q|fields|types]; try discriminate E; cbn [decl_of] in E; injection E as <-.
      + rewrite (cn_builtin m C _ _ H). apply declares_builtin, builtin_in_list.
      + assert (T : In (TypeDef k p) (ad_types (export m))) by (apply in_alias; exact H). exact (declares_type _ _ T).
      + destruct (list_eq_dec Z.eq_dec k (str "extended_asset")) as [->|N].
        * rewrite (cn_asset m C) in H. injection H as <-. apply declares_extended_asset.
        * assert (T : In (StructDef k [] (map (fun f => FieldDef (fst f) (snd f)) fields)) (ad_structs (export m))) by (apply in_struct; exists fields; auto).
          pose proof (declares_struct _ _ T) as X. cbn [sd_name sd_base sd_fields] in X. now rewrite fields_back in X.
      + assert (T : In (VariantDef k (map snd types)) (ad_variants (export m))) by (apply in_variant; exists types; auto). exact (declares_variant _ _ T).
  Qed.
  Lemma export_functional : functional (export m).
  Proof. intros k d d' H H'. apply export_declares in H as (x & Hx & E), H' as (x' & Hx' & E'). congruence. Qed.
  Lemma export_declared k d : afind k m = Some d -> (declared (export m) k <-> decl_of d <> None).
  Proof.
    intros H. split.
    - intros [D X]. apply export_declares in X as (d' & H' & E). assert (d' = d) by congruence. subst. congruence.
    - intros X. destruct (decl_of d) as [D|] eqn:E; [|contradiction]. exists D. apply export_declares. eauto.
  Qed.

  (** ** Types refer to themselves *)
  Lemma ext_text k d : afind k m = Some d -> (extension_text (export m) k <-> is_extension d = true).
  Proof.
    intros H. split.
    - intros [N (b & ->)]. rewrite (export_declared _ _ H) in N. destruct d; try (exfalso; apply N; discriminate); try reflexivity; try (pose proof (sm_nodef m (cn_sound m C) _ _ H); discriminate).
      + destruct (cn_suffix m C _ _ _ _ H eq_refl) as (b' & E & _). exfalso. symmetry in E. eapply suffix_qd; eauto.
      + destruct (cn_suffix m C _ _ _ _ H eq_refl) as (b' & E & _). exfalso. eapply suffix_da; eauto.
    - intros X. destruct d; try discriminate X. split; [rewrite (export_declared _ _ H); intros N; apply N; reflexivity|].
      destruct (cn_suffix m C _ _ _ _ H eq_refl) as (b' & E & _). eauto.
  Qed.
  Lemma plain_declared k d : afind k m = Some d -> decl_of d <> None -> plain_text (export m) k.
  Proof. intros H N. apply (export_declared _ _ H) in N. split; [|split]; intros [X _]; contradiction. Qed.
  Lemma self_declared k d : afind k m = Some d -> decl_of d <> None -> (forall r, d <> AAlias r) -> refers_to (export m) 1 k k.
  Proof.
    intros H N A. destruct (decl_of d) as [D|] eqn:E; [|contradiction]. apply (refers_declared _ 0 k D); [apply export_declares; eauto|].
    intros s ->. destruct d; try discriminate E. eapply A; reflexivity.
  Qed.
  Lemma via b q n : reaches m b q -> refers_to (export m) n q q -> (forall e, afind q m = Some e -> is_extension e = false) -> afind q m <> None -> refers_to (export m) (S n) b q.
  Proof.
    intros R Q N P. destruct R as [->|R]; [eapply refers_mono; [exact Q|lia]|]. apply (refers_alias _ n b q q); [apply export_declares; eexists; split; [exact R|reflexivity]|exact Q|].
    destruct (afind q m) as [e|] eqn:E; [|contradiction]. rewrite (ext_text _ _ E). rewrite (N e eq_refl). discriminate.
  Qed.
  Lemma plain_decl d : is_def d = false -> is_optional_array_extension d = false -> decl_of d <> None.
  Proof. destruct d; intros A B; try discriminate A; try discriminate B; discriminate. Qed.
  (** An optional or array. *)
  Lemma self_wrap k d : afind k m = Some d -> is_extension d = false -> (forall r, d <> AAlias r) -> refers_to (export m) 3 k k.
  Proof.
    intros H X A. destruct (decl_of d) as [D|] eqn:E; [eapply refers_mono; [eapply self_declared; eauto; congruence|lia]|].
    pose proof (sm_nodef m (cn_sound m C) _ _ H) as Nd. destruct d as [| | | | |q|q|q| |]; try discriminate E; try discriminate X; try discriminate Nd;
      destruct (cn_suffix m C _ _ _ _ H eq_refl) as (b & -> & R); destruct (sm_ptr m (cn_sound m C) _ _ q H (or_introl eq_refl)) as (e & He & Ne);
      [pose proof (sm_opt m (cn_sound m C) _ _ e H He) as P|pose proof (sm_arr m (cn_sound m C) _ _ e H He) as P];
      pose proof (plain_decl e (sm_nodef m (cn_sound m C) _ _ He) P) as De;
      assert (Rb : refers_to (export m) 2 b q) by
        (apply via; [exact R|eapply self_declared; eauto| |congruence]; intros e' He'; assert (e' = e) by congruence; subst e'; destruct e; try discriminate P; reflexivity).
    - apply (refers_optional _ 2 b q); [|exact Rb|eapply plain_declared; eauto]. rewrite (export_declared _ _ H). intros Y. apply Y. reflexivity.
    - apply (refers_array _ 2 b q); [|exact Rb|eapply plain_declared; eauto]. rewrite (export_declared _ _ H). intros Y. apply Y. reflexivity.
  Qed.
  Lemma self_type k d : afind k m = Some d -> (forall r, d <> AAlias r) -> refers_to (export m) 5 k k.
  Proof.
    intros H A. destruct (is_extension d) eqn:X; [|eapply refers_mono; [eapply self_wrap; eauto|lia]]. destruct d as [| | | | | |q| | |]; try discriminate X.
    destruct (cn_suffix m C _ _ _ _ H eq_refl) as (b & -> & R). destruct (sm_ptr m (cn_sound m C) _ _ q H (or_introl eq_refl)) as (e & He & Ne).
    pose proof (sm_ext m (cn_sound m C) _ _ e H He) as P. apply (refers_extension _ 4 b q).
    - rewrite (export_declared _ _ H). intros Y. apply Y. reflexivity.
    - apply via; [exact R|eapply self_wrap; eauto| |congruence]. intros e' He'. congruence.
    - rewrite (ext_text _ _ He). rewrite P. discriminate.
  Qed.
  Lemma self_pointer k d q : afind k m = Some d -> In q (pointers d) -> refers_to (export m) 5 q q.
  Proof. intros H Hq. destruct (sm_ptr m (cn_sound m C) _ _ q H Hq) as (e & He & Ne). eapply self_type; eauto. Qed.
End Export.

Definition renamed (m : amap) : amap := map (fun e => (fst e, rename (snd e))) m.
Lemma afind_renamed k m : afind k (renamed m) = option_map rename (afind k m).
Proof. induction m as [|[k' d] m IH]; [reflexivity|]. cbn [renamed map afind fst snd]. destruct (beq k k'); [reflexivity|exact IH]. Qed.
Lemma pointers_rename d : pointers (rename d) = pointers d.
Proof. destruct d; try reflexivity. cbn [rename pointers]. now rewrite map_map. Qed.
Lemma rename_alias d r : rename d = AAlias r <-> d = AAlias r.
Proof. destruct d; split; intros H; try discriminate H; try exact H. Qed.
Lemma named_keys {A} (f : bytes * adata -> list A) (nm : A -> bytes) m : (forall e x, In x (f e) -> nm x = fst e) -> (forall e, (List.length (f e) <= 1)%nat) -> keys_ok m ->
  NoDup (map nm (flat_map f m)).
Proof.
  intros Hn Hl. unfold keys_ok. induction m as [|e m IH]; intros K; [constructor|]. cbn [map fst] in K. apply NoDup_cons_iff in K as [N K]. cbn [flat_map]. rewrite map_app. apply NoDup_app.
  split; [|split; [auto|]].
  - specialize (Hl e). destruct (f e) as [|x [|y l]]; cbn [map List.length] in *; [constructor|constructor; [intros []|constructor]|lia].
  - intros k H1 H2. apply in_map_iff in H1 as (x & <- & Hx), H2 as (y & E & Hy). apply in_flat_map in Hy as (e' & He' & Hy). apply N. rewrite <- (Hn e x Hx), <- E, (Hn e' y Hy). now apply in_map.
Qed.
Lemma export_names m : canon m -> afind [] m = None -> ~ In [] (declared_names (export m)) /\ NoDup (declared_names (export m)).
Proof.
  intros C Ne. destruct builtin_names_facts as [BN BE].
  assert (T : forall k, In k (map new_type_name (flat_map alias_of m)) -> exists p, afind k m = Some (AAlias p)).
  { intros k H. apply in_map_iff in H as (x & <- & Hx). apply (in_alias m C) in Hx. eauto. }
  assert (S : forall k, In k (map sd_name (flat_map struct_of m)) -> k <> str "extended_asset" /\ exists fs, afind k m = Some (AStruct fs)).
  { intros k H. apply in_map_iff in H as (x & <- & Hx). apply (in_struct m C) in Hx as (fs & Hf & Nx & _). eauto. }
  assert (V : forall k, In k (map vd_name (flat_map variant_of m)) -> exists fs, afind k m = Some (AVariant fs)).
  { intros k H. apply in_map_iff in H as (x & <- & Hx). apply (in_variant m C) in Hx as (fs & Hf & _). eauto. }
  assert (B : forall k, In k (map str builtin_type_names) -> exists b, afind k m = Some (ABuiltin b)).
  { intros k H. apply in_map_iff in H as (x & <- & Hx). destruct (builtin_of_name x Hx) as [b ->]. exists b. apply (cn_scalars m C). }
  unfold declared_names. cbn [export ad_types ad_structs ad_variants]. split.
  - intros H. rewrite app_assoc in H. apply in_app_or in H as [H|H]; [exact (BE H)|]. apply in_app_or in H as [H|H]; [apply T in H as [? H]; congruence|].
    apply in_app_or in H as [H|H]; [apply S in H as [_ [? H]]; congruence|apply V in H as [? H]; congruence].
  - rewrite app_assoc. apply NoDup_app. split; [exact BN|]. split; [apply NoDup_app; split; [|split; [apply NoDup_app; split; [|split]|]]|].
    + apply named_keys; [| |exact (cn_keys m C)]; intros [k d]; destruct d; cbn; try lia; try (intros x []; fail). intros x [<-|[]]. reflexivity.
    + apply named_keys; [| |exact (cn_keys m C)]; intros [k d]; unfold struct_of; cbn [fst snd]; destruct d; try (cbn; lia); try (intros x []; fail).
      * intros x. destruct (beq k (str "extended_asset")); [intros []|]. intros [<-|[]]. reflexivity.
      * destruct (beq k (str "extended_asset")); cbn; lia.
    + apply named_keys; [| |exact (cn_keys m C)]; intros [k d]; destruct d; cbn; try lia; try (intros x []; fail). intros x [<-|[]]. reflexivity.
    + intros k H1 H2. apply S in H1 as [_ [? H1]]. apply V in H2 as [? H2]. congruence.
    + intros k H1 H2. apply T in H1 as [? H1]. apply in_app_or in H2 as [H2|H2]; [apply S in H2 as [_ [? H2]]|apply V in H2 as [? H2]]; congruence.
    + intros k H1 H2. apply in_app_or in H1 as [H1|[<-|[]]].
      * apply B in H1 as [b H1]. apply in_app_or in H2 as [H2|H2]; [apply T in H2 as [? H2]; congruence|]. apply in_app_or in H2 as [H2|H2]; [apply S in H2 as [_ [? H2]]|apply V in H2 as [? H2]]; congruence.
      * pose proof (cn_asset m C) as H1. unfold ext_asset in H1. apply in_app_or in H2 as [H2|H2]; [apply T in H2 as [? H2]; congruence|]. apply in_app_or in H2 as [H2|H2]; [apply S in H2 as [N _]; now apply N|].
        apply V in H2 as [? H2]. congruence.
Qed.
Lemma own_members m k d fs : canon m -> afind k m = Some d -> d = AStruct fs \/ d = AVariant fs -> forall f, In f fs -> refers_to (export m) 5 (snd f) (snd f).
Proof.
  intros C H E f Hf. eapply (self_pointer m C); [exact H|]. destruct E as [->| ->]; cbn [pointers]; now apply in_map.
Qed.
Lemma export_struct m k fs : canon m -> afind k m = Some (AStruct fs) -> struct_fields (export m) 6 k fs.
Proof.
  intros C H. apply (fields_root _ 5 k fs); [apply (export_declares m C); eexists; split; [exact H|reflexivity]|]. unfold members_refer.
  pose proof (own_members m k _ fs C H (or_introl eq_refl)) as R. clear H. induction fs as [|f fs IH]; [constructor|]. constructor; [split; [reflexivity|exact (R f (or_introl eq_refl))]|apply IH; intros g Hg; exact (R g (or_intror Hg))].
Qed.
Lemma export_variant m k fs : canon m -> afind k m = Some (AVariant fs) ->
  members_refer (export m) 5 (map (fun t => (t, t)) (map snd fs)) (map (fun f => (snd f, snd f)) fs).
Proof.
  intros C H. pose proof (own_members m k _ fs C H (or_intror eq_refl)) as R. clear H. unfold members_refer.
  induction fs as [|f fs IH]; cbn [map]; [constructor|]. constructor; [split; [reflexivity|exact (R f (or_introl eq_refl))]|apply IH; intros g Hg; exact (R g (or_intror Hg))].
Qed.
Lemma export_well_formed m : canon m -> afind [] m = None -> well_formed (export m) 32.
Proof.
  intros C Ne. destruct (export_names m C Ne) as [E N]. constructor; [exact E|exact N| | |].
  - intros t Ht. apply (in_alias m C) in Ht. exists (td_type t). eapply refers_mono; [apply (via m C _ _ 5); [right; exact Ht| | |]|lia].
    + eapply (self_pointer m C); [exact Ht|left; reflexivity].
    + intros e He. eapply (cn_alias m C); eauto.
    + destruct (sm_ptr m (cn_sound m C) _ _ _ Ht (or_introl eq_refl)) as (e & He & _). congruence.
  - intros s Hs. apply (in_struct m C) in Hs as (fs & Hf & _ & _). exists fs. eapply struct_fields_mono; [eapply export_struct; eauto|lia].
  - intros v t Hv Ht. apply (in_variant m C) in Hv as (fs & Hf & Ev). rewrite Ev in Ht. cbn [vd_types] in Ht. exists t. eapply refers_mono; [eapply (self_pointer m C); [exact Hf|exact Ht]|lia].
Qed.
Lemma export_faithful m : canon m -> faithful (export m) (renamed m).
Proof.
  intros C. split.
  - intros k [D H]. apply (export_declares m C) in H as (d & H & _). rewrite afind_renamed, H. discriminate.
  - intros k d H. rewrite afind_renamed in H. destruct (afind k m) as [d0|] eqn:E; [|discriminate]. assert (d = rename d0) by (cbn [option_map] in H; congruence). subst d. clear H. split.
    + pose proof (sm_nodef m (cn_sound m C) _ _ E) as Nd.
      assert (Sf : forall x q, suffixed d0 = Some (x, q) -> exists b e, k = b ++ x /\ ~ declared (export m) k /\ afind q m = Some e /\ (forall r, e <> AAlias r) /\ reaches m b q).
      { intros x q X. destruct (cn_suffix m C _ _ _ _ E X) as (b & Eb & R). assert (Hq : In q (pointers d0)) by (destruct d0; try discriminate X; injection X as _ ->; left; reflexivity).
        destruct (sm_ptr m (cn_sound m C) _ _ q E Hq) as (e & He & Ne). exists b, e. repeat split; auto. rewrite (export_declared m C _ _ E). destruct d0; try discriminate X; intros Y; apply Y; reflexivity. }
      destruct d0 as [b| | | |p|q|q|q|fs|fs]; try discriminate Nd; cbn [rename described].
      * rewrite <- (cn_builtin m C _ _ E). split; [reflexivity|]. apply (export_declares m C). eexists. split; [exact E|reflexivity].
      * destruct (sm_ptr m (cn_sound m C) _ _ p E (or_introl eq_refl)) as (e & He & Ne). exists p. split; [apply (export_declares m C); eexists; split; [exact E|reflexivity]|].
        split; [exists 5%nat; eapply (self_type m C); eauto|]. rewrite (ext_text m C _ _ He). rewrite (cn_alias m C _ _ _ E He). discriminate.
      * destruct (Sf _ _ eq_refl) as (b & e & Eb & Nk & He & Ne & R). pose proof (sm_opt m (cn_sound m C) _ _ e E He) as P. exists b. split; [exact Eb|]. split; [exact Nk|].
        split; [exists 6%nat; apply (via m C); [exact R|eapply (self_type m C); eauto| |congruence]; intros e' He'; assert (e' = e) by congruence; subst e'; destruct e; try discriminate P; reflexivity|].
        eapply (plain_declared m C); [exact He|]. apply plain_decl; [exact (sm_nodef m (cn_sound m C) _ _ He)|exact P].
      * destruct (Sf _ _ eq_refl) as (b & e & Eb & Nk & He & Ne & R). pose proof (sm_ext m (cn_sound m C) _ _ e E He) as P. exists b. split; [exact Eb|]. split; [exact Nk|].
        split; [exists 6%nat; apply (via m C); [exact R|eapply (self_type m C); eauto| |congruence]; intros e' He'; congruence|].
        rewrite (ext_text m C _ _ He), P. discriminate.
      * destruct (Sf _ _ eq_refl) as (b & e & Eb & Nk & He & Ne & R). pose proof (sm_arr m (cn_sound m C) _ _ e E He) as P. exists b. split; [exact Eb|]. split; [exact Nk|].
        split; [exists 6%nat; apply (via m C); [exact R|eapply (self_type m C); eauto| |congruence]; intros e' He'; assert (e' = e) by congruence; subst e'; destruct e; try discriminate P; reflexivity|].
        eapply (plain_declared m C); [exact He|]. apply plain_decl; [exact (sm_nodef m (cn_sound m C) _ _ He)|exact P].
      * exists 6%nat. now apply export_struct.
      * exists (map snd fs), 5%nat. split; [apply (export_declares m C); eexists; split; [exact E|reflexivity]|now apply (export_variant m k)].
    + rewrite pointers_rename. apply Forall_forall. intros q Hq. destruct (sm_ptr m (cn_sound m C) _ _ q E Hq) as (e & He & Ne).
      exists (rename e). split; [rewrite afind_renamed, He; reflexivity|]. intros r X. exact (Ne r (proj1 (rename_alias e r) X)).
Qed.

(** ** Lookups in a table with renamed alternatives *)
Lemma renamed_insert k d m : renamed (ainsert k d m) = ainsert k (rename d) (renamed m).
Proof. induction m as [|[k' d'] m IH]; [reflexivity|]. cbn [ainsert renamed map fst snd]. fold (renamed m). destruct (lex_ltb k k'); cbn [map fst snd]; [reflexivity|]. fold (renamed (ainsert k d m)). now rewrite IH. Qed.
Lemma renamed_emplace k d m : renamed (fst (try_emplace k d m)) = fst (try_emplace k (rename d) (renamed m)).
Proof. unfold try_emplace. rewrite afind_renamed. destruct (afind k m); [reflexivity|]. apply renamed_insert. Qed.
Lemma renamed_set k d m : renamed (aset k d m) = aset k (rename d) (renamed m).
Proof. induction m as [|[k' d'] m IH]; [reflexivity|]. cbn [aset renamed map fst snd]. fold (renamed m). destruct (beq k k'); cbn [map fst snd]; [reflexivity|]. fold (renamed (aset k d m)). now rewrite IH. Qed.
Definition after {A B} (f : A -> B) (r : res A) : res B := match r with Ok x => Ok (f x) | Err e => Err e | Undef w => Undef w end.
Lemma get_type_renamed : forall d m n, get_type d (renamed m) n = after (fun x => (fst x, renamed (snd x))) (get_type d m n).
Proof.
  induction d as [|d IH]; intros m n; [reflexivity|]. cbn [get_type]. rewrite afind_renamed.
  assert (Dr : forall q m, deref q (renamed m) = after rename (deref q m)) by (intros q m0; unfold deref; rewrite afind_renamed; destruct (afind q m0); reflexivity).
  destruct (afind n m) as [x|] eqn:F; cbn [option_map].
  - destruct x as [b|target|s|v|p|q|q|q|fs|fs]; try reflexivity. cbn [rename]. rewrite IH. destruct (get_type d m target) as [[p m1]| |]; cbn [after bind fst snd]; try reflexivity.
    rewrite Dr. destruct (deref p m1) as [y| |]; cbn [after bind]; try reflexivity. replace (is_extension (rename y)) with (is_extension y) by (destruct y; reflexivity).
    destruct (is_extension y); cbn [negb check bind]; [reflexivity|]. cbn [after fst snd]. now rewrite renamed_set.
  - destruct (ends_with n (str "?")); [|destruct (ends_with n (str "[]")); [|destruct (ends_with n (str "$")); [|reflexivity]]];
      rewrite IH; (destruct (get_type d m _) as [[p m1]| |]; cbn [after bind fst snd]; try reflexivity);
      rewrite Dr; (destruct (deref p m1) as [y| |]; cbn [after bind]; try reflexivity);
      replace (is_optional_array_extension (rename y)) with (is_optional_array_extension y) by (destruct y; reflexivity); replace (is_extension (rename y)) with (is_extension y) by (destruct y; reflexivity);
      [destruct (is_optional_array_extension y)|destruct (is_optional_array_extension y)|destruct (is_extension y)]; cbn [negb check bind]; try reflexivity; cbn [after fst snd]; now rewrite renamed_emplace.
Qed.
Lemma renamed_own m : own_tags m -> keys_ok m -> renamed m = m.
Proof.
  intros H K. unfold renamed. rewrite <- (map_id m) at 2. apply map_ext_in. intros [k d] Hin. cbn [fst snd]. f_equal. destruct d as [| | | | | | | | |fs]; try reflexivity.
  cbn [rename]. f_equal. apply (in_afind _ _ _ K) in Hin. apply H in Hin. rewrite Forall_forall in Hin. rewrite <- (map_id fs) at 2. apply map_ext_in. intros [a b] Hf. apply Hin in Hf. cbn [fst snd] in *. congruence.
Qed.
