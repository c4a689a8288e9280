(** * AddTypeFacts: add_type extends a table by the description of the type (proofs only) *)
From Verif Require Import Base TypedBin Abi AbiSpec AbiFacts AbiLoad AbiScalar AbiBinSound TypedJson TypedJsonFacts AddType AddTypeSpec.

(** ** Sound tables stay sound *)
Definition entry_ok (m : amap) (d : adata) : Prop :=
  is_def d = false /\ (forall q, In q (pointers d) -> exists e, afind q m = Some e /\ forall r, e <> AAlias r) /\
  match d with
  | AOptional q | AArray q => forall e, afind q m = Some e -> is_optional_array_extension e = false
  | AExtension q => forall e, afind q m = Some e -> is_extension e = false
  | _ => True
  end.
Lemma sound_entries m : sound_map m <-> forall p d, afind p m = Some d -> entry_ok m d.
Proof.
  split.
  - intros S p d H. split; [eapply sm_nodef; eauto|]. split; [intros q Hq; eapply sm_ptr; eauto|].
    destruct d; auto; intros e He; [eapply sm_opt|eapply sm_ext|eapply sm_arr]; eauto.
  - intros H. constructor.
    + intros p d Hp. apply (H p d Hp).
    + intros p d q Hp Hq. apply (H p d Hp). exact Hq.
    + intros p q e Hp He. apply (H p _ Hp). exact He.
    + intros p q e Hp He. apply (H p _ Hp). exact He.
    + intros p q e Hp He. apply (H p _ Hp). exact He.
Qed.
Definition mono (m m' : amap) : Prop := forall k d, afind k m = Some d -> afind k m' = Some d.
Lemma mono_refl m : mono m m. Proof. intros k d H. exact H. Qed.
Lemma mono_trans m1 m2 m3 : mono m1 m2 -> mono m2 m3 -> mono m1 m3. Proof. intros A B k d H. auto. Qed.
Lemma entry_mono m m' d : mono m m' -> entry_ok m d -> entry_ok m' d.
Proof.
  intros M (A & B & C). split; [exact A|]. split.
  - intros q Hq. destruct (B q Hq) as (e & He & Ne). exists e. auto.
  - destruct d; auto; intros e He; destruct (B p (or_introl eq_refl)) as (e' & He' & _); apply C;
      pose proof (M _ _ He') as X; congruence.
Qed.
Lemma afind_emplace k d m k' : afind k m = None -> afind k' (fst (try_emplace k d m)) = if beq k' k then Some d else afind k' m.
Proof. intros H. rewrite afind_try_emplace, H. reflexivity. Qed.
Lemma emplace_mono k d m : mono m (fst (try_emplace k d m)).
Proof.
  intros k' d' H. rewrite afind_try_emplace. destruct (afind k m) eqn:K; [exact H|]. destruct (beq k' k) eqn:B; [|exact H].
  apply beq_eq in B. subst. congruence.
Qed.
Lemma emplace_present k d m : afind k (fst (try_emplace k d m)) <> None.
Proof. rewrite afind_try_emplace. destruct (afind k m) eqn:K; [congruence|]. rewrite beq_refl. discriminate. Qed.
Lemma emplace_sound k d m : sound_map m -> entry_ok m d -> sound_map (fst (try_emplace k d m)).
Proof.
  intros S D. rewrite sound_entries in *. intros p e H. apply (entry_mono m); [apply emplace_mono|].
  rewrite afind_try_emplace in H. destruct (afind k m); [eapply S; eauto|]. destruct (beq p k); [|eapply S; eauto].
  assert (e = d) by congruence. subst e. exact D.
Qed.
(** Growing the fields of a struct. *)
Lemma afind_set_struct n l l' m k : afind n m = Some (AStruct l) -> afind k (aset n (AStruct l') m) = if beq k n then Some (AStruct l') else afind k m.
Proof. intros H. rewrite afind_aset, H. reflexivity. Qed.
Lemma set_struct_sound n l l' m : sound_map m -> afind n m = Some (AStruct l) ->
  (forall q, In q (map snd l') -> exists e, afind q m = Some e /\ forall r, e <> AAlias r) -> sound_map (aset n (AStruct l') m).
Proof.
  intros S N P. rewrite sound_entries in *.
  assert (K : forall q e, afind q m = Some e -> exists e', afind q (aset n (AStruct l') m) = Some e' /\ (e' = e \/ (e = AStruct l /\ e' = AStruct l'))).
  { intros q e H. rewrite (afind_set_struct n l l' m q N). destruct (beq q n) eqn:B; [|eauto]. apply beq_eq in B. subst q. eexists. split; [reflexivity|]. right. split; congruence. }
  intros p d H. rewrite (afind_set_struct n l l' m p N) in H.
  assert (D : entry_ok m d \/ d = AStruct l') by (destruct (beq p n); [right; congruence|left; eauto]). destruct D as [(A & B & C)| ->].
  - split; [exact A|]. split.
    + intros q Hq. destruct (B q Hq) as (e & He & Ne). destruct (K q e He) as (e' & He' & [->|[_ ->]]); [eauto|]. exists (AStruct l'). split; [exact He'|discriminate].
    + destruct d; auto; intros e He; destruct (B p0 (or_introl eq_refl)) as (x & Hx & _); destruct (K _ _ Hx) as (x' & Hx' & [->|[_ ->]]);
        rewrite Hx' in He; injection He as <-; auto; reflexivity.
  - split; [reflexivity|]. split; [|exact Logic.I]. intros q Hq. destruct (P q Hq) as (e & He & Ne).
    destruct (K q e He) as (e' & He' & [->|[_ ->]]); [eauto|]. exists (AStruct l'). split; [exact He'|discriminate].
Qed.

(** ** add_type *)
Lemma shape_pointers u : pointers (shape u) = map abi_name (children u).
Proof.
  destruct u; try reflexivity; cbn [shape pointers children]; rewrite ?map_map; reflexivity.
Qed.
Lemma parts_self t : In t (parts t). Proof. destruct t; left; reflexivity. Qed.
Lemma parts_child t c : In c (children t) -> forall u, In u (parts c) -> In u (parts t).
Proof.
  intros Hc u Hu. destruct t; cbn [children] in Hc; try (destruct Hc; fail); try (destruct Hc as [<-|[]]; right; exact Hu); right.
  - apply in_flat_map. eauto.
  - apply in_map_iff in Hc as (f & <- & Hf). apply in_flat_map. eauto.
Qed.
Lemma parts_down : forall t u, In u (parts t) -> u = t \/ exists c, In c (children t) /\ In u (parts c).
Proof.
  intros t u H. destruct t; cbn [parts] in H; destruct H as [<-|H]; auto; try (destruct H; fail); right; cbn [children]; try (eexists; split; [left; reflexivity|exact H]).
  - apply in_flat_map in H. exact H.
  - apply in_flat_map in H as (f & Hf & H). exists (snd f). split; [apply in_map; exact Hf|exact H].
Qed.
Lemma parts_closed : forall t u c, In u (parts t) -> In c (children u) -> In c (parts t).
Proof.
  induction t as [b|t IH|t IH|tys IH|nm fs IH|a b IHa IHb|t IH| |t IH|names|k] using jty_ind'; intros u c Hu Hc;
    (apply parts_down in Hu as [->|(x & Hx & Hu)]; [eapply parts_child; [exact Hc|apply parts_self]|]); cbn [children] in Hx; try (destruct Hx; fail);
    try (destruct Hx as [<-|[]]; eapply parts_child; [cbn [children]; left; reflexivity|eauto]).
  - rewrite Forall_forall in IH. eapply parts_child; [cbn [children]; exact Hx|]. eapply IH; eauto.
  - rewrite Forall_forall in IH. eapply parts_child; [cbn [children]; exact Hx|]. apply in_map_iff in Hx as (f & <- & Hf). eapply IH; eauto.
Qed.
Lemma well_nested_child t c : In c (children t) -> well_nested c = false -> well_nested t = false.
Proof.
  intros Hc H. destruct (well_nested t) eqn:W; [|reflexivity]. unfold well_nested in *. rewrite forallb_forall in W.
  assert (X : forallb nests (parts c) = true) by (apply forallb_forall; intros u Hu; apply W; eapply parts_child; eauto). congruence.
Qed.
Lemma shape_not_alias u r : shape u <> AAlias r. Proof. destruct u; discriminate. Qed.

Definition scalars (m : amap) : Prop := forall b, afind (builtin_name b) m = Some (ABuiltin b).

Section Add.
  Variable P : jty -> Prop.
  Hypothesis P_closed : forall u c, P u -> In c (children u) -> P c.
  Hypothesis P_names : forall u u', P u -> P u' -> abi_name u = abi_name u' -> shape u = shape u'.

  Definition is_struct (u : jty) : Prop := exists n fs, u = JStruct n fs.
  Record Inv (O : list bytes) (m : amap) : Prop := {
    i_sound : sound_map m;
    i_scalars : scalars m;
    i_open : forall k, In k O -> exists l, afind k m = Some (AStruct l) /\ exists u, P u /\ is_struct u /\ abi_name u = k;
    i_agree : forall u d, P u -> ~ In (abi_name u) O -> afind (abi_name u) m = Some d -> d = shape u
  }.
  (** Every type entry is described, or still open. *)
  Lemma entry_of O m u d : Inv O m -> P u -> afind (abi_name u) m = Some d -> d = shape u \/ ((exists l, d = AStruct l) /\ exists l, shape u = AStruct l).
  Proof.
    intros I Pu H. destruct (in_dec (list_eq_dec Z.eq_dec) (abi_name u) O) as [Ho|Ho]; [|left; eapply i_agree; eauto].
    destruct (i_open _ _ I _ Ho) as (l & Hl & u' & Pu' & (n & fs & ->) & En). right. split; [exists l; congruence|].
    pose proof (P_names _ _ Pu Pu' (eq_sym En)) as S. rewrite S. cbn [shape]. eauto.
  Qed.
  Lemma wraps_shape u : is_optional_array_extension (shape u) = wraps u. Proof. destruct u; reflexivity. Qed.
  Lemma ext_shape u : is_extension (shape u) = negb (named u). Proof. destruct u; reflexivity. Qed.
  Lemma entry_kind O m u d : Inv O m -> P u -> afind (abi_name u) m = Some d ->
    is_optional_array_extension d = wraps u /\ is_extension d = negb (named u) /\ forall r, d <> AAlias r.
  Proof.
    intros I Pu H. rewrite <- wraps_shape, <- ext_shape. destruct (entry_of O m u d I Pu H) as [->|[[l ->] [l' ->]]].
    - split; [reflexivity|]. split; [reflexivity|apply shape_not_alias].
    - split; [reflexivity|]. split; [reflexivity|discriminate].
  Qed.
  Definition grown (m m' : amap) : Prop := forall k, afind k m = None -> afind k m' <> None -> exists u, P u /\ abi_name u = k.
  Lemma grown_refl m : grown m m. Proof. intros k H H'. contradiction. Qed.
  Lemma grown_trans m1 m2 m3 : grown m1 m2 -> grown m2 m3 -> grown m1 m3.
  Proof. intros A B k H H'. destruct (afind k m2) eqn:K; [apply (A k H); congruence|apply (B k K H')]. Qed.

  (** Inserting the description of a type whose parts are in the table. *)
  Lemma inv_insert O m u : Inv O m -> P u -> entry_ok m (shape u) ->
    let m' := fst (try_emplace (abi_name u) (shape u) m) in Inv O m' /\ mono m m' /\ grown m m' /\ afind (abi_name u) m' <> None.
  Proof.
    intros I Pu D m'. assert (M : mono m m') by apply emplace_mono. split; [|split; [exact M|split]].
    - constructor.
      + apply emplace_sound; [exact (i_sound _ _ I)|exact D].
      + intros b. apply M, (i_scalars _ _ I).
      + intros k Hk. destruct (i_open _ _ I k Hk) as (l & Hl & X). exists l. split; [apply M, Hl|exact X].
      + intros x d Px Nx H. unfold m' in H. rewrite afind_try_emplace in H. destruct (afind (abi_name u) m) eqn:K; [eapply i_agree; eauto|].
        destruct (beq (abi_name x) (abi_name u)) eqn:B; [|eapply i_agree; eauto]. apply beq_eq in B. assert (d = shape u) by congruence. subst d. symmetry. now apply P_names.
    - intros k H H'. unfold m' in H'. rewrite afind_try_emplace in H'. destruct (afind (abi_name u) m) eqn:K; [contradiction|].
      destruct (beq k (abi_name u)) eqn:B; [|contradiction]. apply beq_eq in B. eauto.
    - apply emplace_present.
  Qed.

  Definition good (O : list bytes) (t : jty) (m : amap) (r : res (bytes * amap)) : Prop :=
    match r with
    | Ok (p, m') => p = abi_name t /\ Inv O m' /\ mono m m' /\ grown m m' /\ afind (abi_name t) m' <> None
    | Err e => e = E_invalid_nesting /\ well_nested t = false
    | Undef _ => False
    end.
  Lemma good_find O t m b : Inv O m -> abi_name t = builtin_name b -> good O t m (find_type (builtin_name b) m).
  Proof.
    intros I N. unfold find_type. pose proof (i_scalars _ _ I b) as S. rewrite S. cbn [good]. rewrite N. split; [reflexivity|].
    split; [exact I|]. split; [apply mono_refl|]. split; [apply grown_refl|]. rewrite S. discriminate.
  Qed.
  (** Vectors, optionals and extensions. *)
  Lemma good_wrap O t c m (kind : adata -> bool) (k : bytes -> amap -> bytes * amap) :
    (forall m, k (abi_name c) m = (abi_name t, fst (try_emplace (abi_name t) (shape t) m))) -> children t = [c] -> P t -> Inv O m -> nests t = negb (kind (shape c)) ->
    (forall d, afind (abi_name c) m = None \/ True -> P c -> forall m', Inv O m' -> afind (abi_name c) m' = Some d -> kind d = kind (shape c)) ->
    (forall m' d, afind (abi_name c) m' = Some d -> kind d = false -> (forall r, d <> AAlias r) -> entry_ok m' (shape t)) ->
    good O c m (add_type c m) ->
    good O t m (let* (e, m) := add_type c m in let* d := deref e m in let* _ := check (negb (kind d)) E_invalid_nesting in Ok (k e m)).
  Proof.
    intros Hk Ch Pt I N K En G. assert (Pc : P c) by (eapply P_closed; [exact Pt|rewrite Ch; left; reflexivity]).
    destruct (add_type c m) as [[p m1]|e|w]; cbn [good] in G; [|destruct G as [-> W]; split; [reflexivity|]; eapply well_nested_child; [rewrite Ch; left; reflexivity|exact W]|contradiction].
    destruct G as (-> & I1 & M1 & G1 & Pr). cbn [bind]. destruct (afind (abi_name c) m1) as [d|] eqn:F; [|contradiction]. unfold deref. rewrite F. cbn [bind].
    pose proof (K d (or_intror Logic.I) Pc m1 I1 F) as Kd. destruct (kind d) eqn:D; cbn [negb check bind]; rewrite ?Hk.
    - cbn [good]. split; [reflexivity|]. destruct (well_nested t) eqn:W; [|reflexivity]. unfold well_nested in W. rewrite forallb_forall in W.
      specialize (W t (parts_self t)). rewrite N, <- Kd in W. discriminate W.
    - destruct (inv_insert O m1 t I1 Pt) as (I2 & M2 & G2 & Pr2); [eapply En; eauto; eapply entry_kind; eauto|].
      cbn [good]. split; [reflexivity|]. split; [exact I2|]. split; [eapply mono_trans; eauto|]. split; [eapply grown_trans; eauto|exact Pr2].
  Qed.

  Lemma add_good : forall t, P t -> addable t = true -> forall O m, Inv O m -> good O t m (add_type t m).
  Proof.
    induction t as [b|t IH|t IH|tys IH|nm fs IH|a b IHa IHb|t IH| |t IH|names|k] using jty_ind'; intros Pt A O m I; try discriminate A.
    - cbn [addable] in A. cbn [add_type]. rewrite A. now apply good_find.
    - cbn [addable] in A. apply andb_true_iff in A as [_ A]. cbn [add_type].
      apply (good_wrap O (JVec t) t m is_optional_array_extension (fun e m => (type_name (JVec t), fst (try_emplace (type_name (JVec t)) (AArray e) m))) (fun m => eq_refl) eq_refl Pt I).
      + cbn [nests]. now rewrite wraps_shape.
      + intros d _ Pc m' I' F. rewrite wraps_shape. eapply entry_kind; eauto.
      + intros m' d F Kd Na. split; [reflexivity|]. split; [intros q [<-|[]]; eauto|]. cbn [shape]. intros e He. congruence.
      + apply IH; auto. eapply P_closed; [exact Pt|left; reflexivity].
    - cbn [addable] in A. apply andb_true_iff in A as [_ A]. cbn [add_type].
      apply (good_wrap O (JOpt t) t m is_optional_array_extension (fun e m => (type_name (JOpt t), fst (try_emplace (type_name (JOpt t)) (AOptional e) m))) (fun m => eq_refl) eq_refl Pt I).
      + cbn [nests]. now rewrite wraps_shape.
      + intros d _ Pc m' I' F. rewrite wraps_shape. eapply entry_kind; eauto.
      + intros m' d F Kd Na. split; [reflexivity|]. split; [intros q [<-|[]]; eauto|]. cbn [shape]. intros e He. congruence.
      + apply IH; auto. eapply P_closed; [exact Pt|left; reflexivity].
    - cbn [addable] in A. cbn [add_type].
      set (go := fix go (ts : list jty) (m : amap) {struct ts} : res (list (bytes * bytes) * amap) :=
                   match ts with [] => Ok ([], m) | t' :: ts' => let* (p, m) := add_type t' m in let* (ps, m) := go ts' m in Ok ((p, p) :: ps, m) end).
      assert (L : forall ts, incl ts tys -> forall m, Inv O m ->
        match go ts m with
        | Ok (ps, m') => ps = map (fun t => (abi_name t, abi_name t)) ts /\ Inv O m' /\ mono m m' /\ grown m m' /\ (forall t, In t ts -> afind (abi_name t) m' <> None)
        | Err e => e = E_invalid_nesting /\ well_nested (JVariant tys) = false
        | Undef _ => False
        end).
      { induction ts as [|t ts IHts]; intros In_ m1 I1; cbn [go].
        - split; [reflexivity|]. split; [exact I1|]. split; [apply mono_refl|]. split; [apply grown_refl|]. intros ? [].
        - assert (Ht : In t tys) by (apply In_; left; reflexivity). rewrite forallb_forall in A. pose proof (A t Ht) as At. apply andb_true_iff in At as [_ At].
          rewrite Forall_forall in IH. pose proof (IH t Ht (P_closed _ _ Pt Ht) At O m1 I1) as G.
          destruct (add_type t m1) as [[p m2]|e|w]; cbn [good] in G; [|destruct G as [-> W]; split; [reflexivity|]; eapply well_nested_child; [|exact W]; exact Ht|contradiction].
          destruct G as (-> & I2 & M2 & G2 & Pr2). cbn [bind]. specialize (IHts (fun x Hx => In_ x (or_intror Hx)) m2 I2).
          destruct (go ts m2) as [[ps m3]|e|w]; [|exact IHts|exact IHts]. destruct IHts as (-> & I3 & M3 & G3 & Pr3). cbn [bind].
          split; [reflexivity|]. split; [exact I3|]. split; [eapply mono_trans; eauto|]. split; [eapply grown_trans; eauto|].
          intros x [<-|Hx]; [|auto]. destruct (afind (abi_name t) m2) eqn:F; [rewrite (M3 _ _ F); discriminate|contradiction]. }
      specialize (L tys (incl_refl _) m I). destruct (go tys m) as [[ps m1]|e|w]; [|exact L|exact L]. destruct L as (-> & I1 & M1 & G1 & Pr1). cbn [bind].
      destruct (inv_insert O m1 (JVariant tys) I1 Pt) as (I2 & M2 & G2 & Pr2).
      { split; [reflexivity|]. split; [|exact Logic.I]. rewrite shape_pointers. intros q Hq. apply in_map_iff in Hq as (t & <- & Ht).
        destruct (afind (abi_name t) m1) as [d|] eqn:F; [|exfalso; eapply Pr1; eauto]. exists d. split; [reflexivity|]. apply (entry_kind O m1 t d I1 (P_closed _ _ Pt Ht) F). }
      cbn [good]. split; [reflexivity|]. split; [exact I2|]. split; [eapply mono_trans; eauto|]. split; [eapply grown_trans; eauto|exact Pr2].
    - cbn [addable] in A. cbn [add_type]. unfold try_emplace. destruct (afind nm m) as [d0|] eqn:F0.
      { cbn [good abi_name type_name]. split; [reflexivity|]. split; [exact I|]. split; [apply mono_refl|]. split; [apply grown_refl|congruence]. }
      set (go := fix go (fs : list (bytes * jty)) (m : amap) {struct fs} : res amap :=
                   match fs with [] => Ok m | f :: fs' => let* (p, m) := add_type (snd f) m in let* m := push_field nm (fst f, p) m in go fs' m end).
      set (sig := fun f : bytes * jty => (fst f, abi_name (snd f))).
      assert (L : forall done todo, fs = done ++ todo -> forall m1, Inv (nm :: O) m1 -> afind nm m1 = Some (AStruct (map sig done)) ->
        (forall t, In t (map snd done) -> afind (abi_name t) m1 <> None) ->
        match go todo m1 with
        | Ok m' => Inv (nm :: O) m' /\ afind nm m' = Some (AStruct (map sig fs)) /\ (forall t, In t (map snd fs) -> afind (abi_name t) m' <> None) /\
                   grown m1 m' /\ (forall k d, k <> nm -> afind k m1 = Some d -> afind k m' = Some d)
        | Err e => e = E_invalid_nesting /\ well_nested (JStruct nm fs) = false
        | Undef _ => False
        end).
      { intros done todo. revert done. induction todo as [|f todo IHt]; intros done E m1 I1 Fn Pr; cbn [go].
        - rewrite app_nil_r in E. subst done. split; [exact I1|]. split; [exact Fn|]. split; [exact Pr|]. split; [apply grown_refl|auto].
        - assert (Hf : In f fs) by (rewrite E; apply in_or_app; right; left; reflexivity).
          assert (Hc : In (snd f) (children (JStruct nm fs))) by (cbn [children]; apply in_map; exact Hf).
          rewrite forallb_forall in A. rewrite Forall_forall in IH. pose proof (IH f Hf (P_closed _ _ Pt Hc) (A f Hf) (nm :: O) m1 I1) as G.
          destruct (add_type (snd f) m1) as [[p m2]|e|w]; cbn [good] in G; [|destruct G as [-> W]; split; [reflexivity|]; eapply well_nested_child; [exact Hc|exact W]|contradiction].
          destruct G as (-> & I2 & M2 & G2 & Pr2). cbn [bind]. pose proof (M2 _ _ Fn) as Fn2. unfold push_field. rewrite Fn2. cbn [bind].
          set (m3 := aset nm (AStruct (map sig done ++ [(fst f, abi_name (snd f))])) m2).
          assert (A3 : forall k, afind k m3 = if beq k nm then Some (AStruct (map sig (done ++ [f]))) else afind k m2).
          { intros k. unfold m3. rewrite (afind_set_struct nm (map sig done) _ m2 k Fn2), map_app. reflexivity. }
          assert (Pres : forall k, afind k m2 <> None -> afind k m3 <> None) by (intros k Hk; rewrite A3; destruct (beq k nm); [discriminate|exact Hk]).
          assert (Some_ : forall x, afind x m2 <> None -> exists d, afind x m2 = Some d) by (intros x; destruct (afind x m2); [eauto|congruence]).
          assert (PrD : forall t, In t (map snd (done ++ [f])) -> afind (abi_name t) m2 <> None).
          { intros t Ht. rewrite map_app in Ht. apply in_app_iff in Ht as [Ht|[<-|[]]]; [|exact Pr2]. specialize (Pr t Ht).
            destruct (afind (abi_name t) m1) eqn:F; [rewrite (M2 _ _ F); discriminate|contradiction]. }
          assert (I3 : Inv (nm :: O) m3).
          { constructor.
            - apply (set_struct_sound nm (map sig done)); [exact (i_sound _ _ I2)|exact Fn2|]. intros q Hq.
              assert (Ht : exists t, In t (map snd (done ++ [f])) /\ q = abi_name t).
              { rewrite map_app in Hq. apply in_app_iff in Hq as [Hq|[<-|[]]].
                - rewrite map_map in Hq. apply in_map_iff in Hq as (g & <- & Hg). exists (snd g). split; [apply in_map, in_or_app; auto|reflexivity].
                - exists (snd f). split; [apply in_map, in_or_app; right; left; reflexivity|reflexivity]. }
              destruct Ht as (t & Ht & ->). destruct (Some_ _ (PrD t Ht)) as [d Hd]. exists d. split; [exact Hd|].
              assert (Pt' : P t). { eapply P_closed; [exact Pt|]. cbn [children]. rewrite E, map_app. rewrite map_app in Ht. apply in_app_iff in Ht as [Ht|[<-|[]]]; apply in_or_app; [auto|right; left; reflexivity]. }
              apply (entry_kind (nm :: O) m2 t d I2 Pt' Hd).
            - intros b. rewrite A3. destruct (beq (builtin_name b) nm) eqn:B; [|apply (i_scalars _ _ I2)]. apply beq_eq in B.
              exfalso. pose proof (i_scalars _ _ I b) as S. rewrite B in S. congruence.
            - intros k Hk. rewrite A3. destruct (beq k nm) eqn:B.
              + eexists. split; [reflexivity|]. apply beq_eq in B. subst k. exists (JStruct nm fs). split; [exact Pt|]. split; [repeat eexists|reflexivity].
              + destruct (i_open _ _ I2 k Hk) as (l & Hl & X). eauto.
            - intros u d Pu Nu H. rewrite A3 in H. destruct (beq (abi_name u) nm) eqn:B; [apply beq_eq in B; exfalso; apply Nu; left; congruence|]. eapply i_agree; eauto. }
          specialize (IHt (done ++ [f])). rewrite <- app_assoc in IHt. specialize (IHt E m3 I3).
          rewrite A3, beq_refl in IHt. specialize (IHt eq_refl (fun t Ht => Pres _ (PrD t Ht))).
          fold m3. destruct (go todo m3) as [m4|e|w]; [|exact IHt|exact IHt]. destruct IHt as (I4 & F4 & P4 & G4 & K4). split; [exact I4|]. split; [exact F4|]. split; [exact P4|]. split.
          + eapply grown_trans; [exact G2|]. eapply grown_trans; [|exact G4]. intros k H H'. rewrite A3 in H'. destruct (beq k nm) eqn:B; [|contradiction]. apply beq_eq in B. subst k. congruence.
          + intros k d Nk Hk. apply K4; [exact Nk|]. rewrite A3. apply beq_neq in Nk. rewrite Nk. apply M2, Hk. }
      assert (A0 : forall k, afind k (ainsert nm (AStruct []) m) = if beq k nm then Some (AStruct []) else afind k m) by (intros k; now apply afind_ainsert).
      assert (I0 : Inv (nm :: O) (ainsert nm (AStruct []) m)).
      { pose proof (emplace_mono nm (AStruct []) m) as M. pose proof (emplace_sound nm (AStruct []) m (i_sound _ _ I)) as S. unfold try_emplace in M, S. rewrite F0 in M, S. cbn [fst] in M, S. constructor.
        - apply S. split; [reflexivity|]. split; [intros q []|exact Logic.I].
        - intros b. apply M, (i_scalars _ _ I).
        - intros k [<-|Hk].
          + rewrite A0, beq_refl. eexists. split; [reflexivity|]. exists (JStruct nm fs). split; [exact Pt|]. split; [repeat eexists|reflexivity].
          + destruct (i_open _ _ I k Hk) as (l & Hl & X). exists l. split; [apply M, Hl|exact X].
        - intros u d Pu Nu H. rewrite A0 in H. destruct (beq (abi_name u) nm) eqn:B; [apply beq_eq in B; exfalso; apply Nu; left; congruence|]. eapply i_agree; [exact I|exact Pu| |exact H]. intros X. apply Nu. right. exact X. }
      specialize (L [] fs eq_refl _ I0). rewrite A0, beq_refl in L. specialize (L eq_refl (fun t X => match X with end)).
      cbv iota. fold go. destruct (go fs (ainsert nm (AStruct []) m)) as [m1|e|w]; [|exact L|exact L]. destruct L as (I1 & F1 & P1 & G1 & K1). cbn [bind good abi_name type_name].
      split; [reflexivity|]. split; [|split; [|split]].
      + constructor.
        * exact (i_sound _ _ I1).
        * exact (i_scalars _ _ I1).
        * intros k Hk. apply (i_open _ _ I1 k). right. exact Hk.
        * intros u d Pu Nu H. destruct (beq (abi_name u) nm) eqn:B.
          -- apply beq_eq in B. assert (d = AStruct (map sig fs)) by congruence. subst d. symmetry. exact (P_names u (JStruct nm fs) Pu Pt B).
          -- eapply i_agree; [exact I1|exact Pu| |exact H]. intros [X|X]; [apply beq_neq in B; congruence|auto].
      + intros k d Hk. apply K1; [intros ->; congruence|]. rewrite A0. destruct (beq k nm) eqn:B; [apply beq_eq in B; subst; congruence|exact Hk].
      + eapply grown_trans; [|exact G1]. intros k H H'. rewrite A0 in H'. destruct (beq k nm) eqn:B; [|contradiction]. apply beq_eq in B. exists (JStruct nm fs). auto.
      + congruence.
    - cbn [addable] in A. cbn [add_type].
      apply (good_wrap O (JMaybe t) t m is_extension (fun e m => (e ++ str "$", fst (try_emplace (e ++ str "$") (AExtension e) m))) (fun m => eq_refl) eq_refl Pt I).
      + cbn [nests]. rewrite ext_shape, negb_involutive. reflexivity.
      + intros d _ Pc m' I' F. rewrite ext_shape. eapply entry_kind; eauto.
      + intros m' d F Kd Na. split; [reflexivity|]. split; [intros q [<-|[]]; eauto|]. cbn [shape]. intros e He. congruence.
      + apply IH; auto. eapply P_closed; [exact Pt|left; reflexivity].
    - cbn [add_type]. exact (good_find O JView m B_bytes I eq_refl).
    - cbn [add_type]. exact (good_find O (JOpaque t) m B_bytes I eq_refl).
  Qed.
End Add.

(** ** Tables *)
Lemma builtin_name_inj b b' : builtin_name b = builtin_name b' -> b = b'.
Proof. destruct b, b'; intros H; try reflexivity; discriminate H. Qed.
Lemma builtin_in_list b : In (builtin_string b) builtin_type_names.
Proof. destruct b; cbn; tauto. Qed.
Lemma convert_scalars a c : convert a = Ok c -> sound_map (abi_types c) /\ scalars (abi_types c).
Proof.
  intros H. pose proof (convert_total a) as T. rewrite H in T. destruct T as (ND & _ & Fa). pose proof (names_functional a ND) as F.
  split; [eapply faithful_sound; eauto|]. intros b. destruct Fa as [A B].
  assert (D : declares a (builtin_name b) DBuiltin) by (constructor; apply builtin_in_list).
  destruct (afind (builtin_name b) (abi_types c)) as [d|] eqn:E; [|exfalso; eapply A; eauto; eexists; eauto].
  destruct (B _ _ E) as [Q _]. destruct d; cbn [described] in Q; try contradiction.
  - destruct Q as [Q _]. apply builtin_name_inj in Q. subst. reflexivity.
  - destruct Q as (s & Q & _). pose proof (F _ _ _ D Q). discriminate.
  - destruct Q as (x & _ & Q & _). exfalso. apply Q. eexists; eauto.
  - destruct Q as (x & _ & Q & _). exfalso. apply Q. eexists; eauto.
  - destruct Q as (x & _ & Q & _). exfalso. apply Q. eexists; eauto.
  - destruct Q as (k & Q). inversion Q; subst; match goal with X : declares a (builtin_name b) _ |- _ => lazymatch type of X with declares _ _ DBuiltin => fail | _ => pose proof (F _ _ _ D X) end end; discriminate.
  - destruct Q as (ts & k & Q & _). pose proof (F _ _ _ D Q). discriminate.
Qed.
Definition no_new_alias (m m' : amap) : Prop := forall k y, afind k m = None -> afind k m' = Some y -> forall r, y <> AAlias r.
Lemma get_type_sound : forall d m n p m', sound_map m -> get_type d m n = Ok (p, m') -> sound_map m' /\ mono m m' /\ no_new_alias m m' /\ type_in m' p.
Proof.
  induction d as [|d IH]; intros m n p m' S H; [discriminate|]. cbn [get_type] in H. destruct (afind n m) as [e|] eqn:F.
  - assert (X : is_def e = false) by (eapply sm_nodef; eauto).
    assert (K : (exists q, e = AAlias q /\ p = q /\ m' = m) \/ (p = n /\ m' = m /\ forall q, e <> AAlias q)).
    { destruct e; try discriminate X; try (right; split; [congruence|split; [congruence|discriminate]]). left. exists p0. split; [reflexivity|split; congruence]. }
    assert (NN : no_new_alias m m) by (intros k y H1 H2; congruence).
    destruct K as [(q & -> & -> & ->)|(-> & -> & Na)].
    + split; [exact S|]. split; [apply mono_refl|]. split; [exact NN|]. destruct (sm_ptr m S n _ q F (or_introl eq_refl)) as (x & Hx & Nx). exists x. auto.
    + split; [exact S|]. split; [apply mono_refl|]. split; [exact NN|]. exists e. auto.
  - assert (Step : forall nm (kind : adata -> bool) (mk : bytes -> adata),
      (forall m1 q x, afind q m1 = Some x -> kind x = false -> (forall r, x <> AAlias r) -> entry_ok m1 (mk q)) -> (forall q r, mk q <> AAlias r) ->
      (let* (base, m1) := get_type d m nm in let* x := deref base m1 in let* _ := check (negb (kind x)) E_invalid_nesting in
       Ok (n, fst (try_emplace n (mk base) m1))) = Ok (p, m') -> sound_map m' /\ mono m m' /\ no_new_alias m m' /\ type_in m' p).
    { intros nm kind mk Hm Na Q. apply bind_Ok in Q as ([b m1] & G & Q). destruct (IH _ _ _ _ S G) as (S1 & M1 & N1 & x & Hx & Nx).
      unfold deref in Q. rewrite Hx in Q. cbn [bind] in Q. destruct (kind x) eqn:K; [discriminate|]. cbn [negb check bind] in Q.
      assert (p = n /\ m' = fst (try_emplace n (mk b) m1)) as [-> ->] by (split; congruence).
      assert (N2 : no_new_alias m (fst (try_emplace n (mk b) m1))).
      { intros k y H1 H2. rewrite afind_try_emplace in H2. destruct (afind n m1) eqn:Fn; [eapply N1; eauto|]. destruct (beq k n); [|eapply N1; eauto].
        assert (y = mk b) by congruence. subst y. apply Na. }
      split; [apply emplace_sound; [exact S1|eapply Hm; eauto]|]. split; [eapply mono_trans; [exact M1|apply emplace_mono]|]. split; [exact N2|].
      destruct (afind n (fst (try_emplace n (mk b) m1))) as [y|] eqn:Y; [|exfalso; eapply emplace_present; eauto]. exists y. split; [exact Y|]. eapply N2; eauto. }
    destruct (ends_with n (str "?")); [|destruct (ends_with n (str "[]")); [|destruct (ends_with n (str "$")); [|discriminate]]].
    + refine (Step _ is_optional_array_extension AOptional _ _ H); [|discriminate].
      intros m1 q x Hx K Na. split; [reflexivity|]. split; [intros y [<-|[]]; eauto|]. intros e He. congruence.
    + refine (Step _ is_optional_array_extension AArray _ _ H); [|discriminate].
      intros m1 q x Hx K Na. split; [reflexivity|]. split; [intros y [<-|[]]; eauto|]. intros e He. congruence.
    + refine (Step _ is_extension AExtension _ _ H); [|discriminate].
      intros m1 q x Hx K Na. split; [reflexivity|]. split; [intros y [<-|[]]; eauto|]. intros e He. congruence.
Qed.
Lemma get_type_table_sound : forall d m n, sound_map m -> sound_map (get_type_table d m n) /\ mono m (get_type_table d m n).
Proof.
  induction d as [|d IH]; intros m n S; [split; [exact S|apply mono_refl]|]. cbn [get_type_table].
  destruct (get_type (Datatypes.S d) m n) as [[p m']|e|w] eqn:G; [destruct (get_type_sound _ _ _ _ _ S G) as (A & B & _); auto| |].
  all: destruct (afind n m) as [x|] eqn:F;
    [assert (X : is_def x = false) by (eapply sm_nodef; eauto); destruct x; try discriminate X; split; [exact S|apply mono_refl|exact S|apply mono_refl|exact S|apply mono_refl|exact S|apply mono_refl|exact S|apply mono_refl|exact S|apply mono_refl|exact S|apply mono_refl]
    |destruct (ends_with n (str "?")); [auto|]; destruct (ends_with n (str "[]")); [auto|]; destruct (ends_with n (str "$")); [auto|]; split; [exact S|apply mono_refl]].
Qed.
Lemma coherent_inv t m : sound_map m -> scalars m -> coherent m t -> Inv (fun u => In u (parts t)) [] m.
Proof. intros S Sc [_ C]. constructor; auto. intros k []. Qed.
Lemma add_type_good t m : sound_map m -> scalars m -> addable t = true -> coherent m t -> good (fun u => In u (parts t)) [] t m (add_type t m).
Proof.
  intros S Sc A C. apply (add_good (fun u => In u (parts t))); auto.
  - intros u c Hu Hc. eapply parts_closed; eauto.
  - apply C.
  - apply parts_self.
  - now apply coherent_inv.
Qed.
(** From the entry of a type to the entries of its parts. *)
Lemma describes_down m t : sound_map m -> (forall u d, In u (parts t) -> afind (abi_name u) m = Some d -> d = shape u) ->
  afind (abi_name t) m <> None -> describes m t.
Proof.
  intros S. unfold describes. induction t as [b|t IH|t IH|tys IH|nm fs IH|a b IHa IHb|t IH| |t IH|names|k] using jty_ind'; intros C P;
    (match goal with |- forall u, In u (parts ?t) -> _ =>
       assert (T : afind (abi_name t) m = Some (shape t)) by (destruct (afind (abi_name t) m) as [d|] eqn:F; [f_equal; apply C; [apply parts_self|exact F]|contradiction]);
       assert (Ch : forall c, In c (children t) -> afind (abi_name c) m <> None) by
         (intros c Hc; destruct (sm_ptr m S _ _ (abi_name c) T) as (e & He & _); [rewrite shape_pointers; now apply in_map|congruence]) end);
    intros u Hu; apply parts_down in Hu as [->|(c & Hc & Hu)]; try exact T; cbn [children] in *; try (destruct Hc; fail);
    try (destruct Hc as [<-|[]]; apply IH; [intros x d Hx; apply C; right; exact Hx|apply Ch; left; reflexivity|exact Hu]).
  - rewrite Forall_forall in IH. apply (IH c Hc); [|now apply Ch|exact Hu]. intros x d Hx. apply C. eapply parts_child; [exact Hc|exact Hx].
  - rewrite Forall_forall in IH. pose proof Hc as Hc'. apply in_map_iff in Hc as (f & <- & Hf). apply (IH f Hf); [|now apply Ch|exact Hu]. intros x d Hx. apply C. eapply parts_child; [exact Hc'|exact Hx].
Qed.
