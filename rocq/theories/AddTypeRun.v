(** * AddTypeRun: the table after add_type, also when it fails (proofs only) *)
From Verif Require Import Base TypedBin Abi AbiSpec AbiFacts AbiLoad AbiScalar AbiBinSound TypedJson TypedJsonFacts AddType AddTypeSpec AddTypeFacts.

(** ** The same call *)
Definition outcome {A} (x : amap * res A) : res (A * amap) := let (m, r) := x in let* p := r in Ok (p, m).
Lemma outcome_then {A B} (x : amap * res A) (k : A -> amap -> amap * res B) :
  outcome (run_then x k) = let* (a, m) := outcome x in outcome (k a m).
Proof. destruct x as [m [a|e|w]]; reflexivity. Qed.
Lemma outcome_wrapper kind n d e m : outcome (add_wrapper kind n d e m) =
  let* x := deref e m in let* _ := check (negb (kind x)) E_invalid_nesting in Ok (n, fst (try_emplace n d m)).
Proof. unfold add_wrapper. destruct (deref e m) as [x|x|x]; try reflexivity. cbn [bind]. destruct (kind x); reflexivity. Qed.
Lemma bind_ext {A B} (r : res A) (f g : A -> res B) : (forall a, f a = g a) -> bind r f = bind r g.
Proof. destruct r; cbn; auto. Qed.
Lemma bind_assoc {A B C} (r : res A) (f : A -> res B) (g : B -> res C) : bind (bind r f) g = bind r (fun a => bind (f a) g).
Proof. destruct r; reflexivity. Qed.
Lemma run_outcome : forall t m, add_type t m = outcome (add_run t m).
Proof.
  induction t as [b|t IH|t IH|tys IH|nm fs IH|a b IHa IHb|t IH| |t IH|names|k] using jty_ind'; intros m; try reflexivity.
  - cbn [add_type add_run]. destruct (scalar_compiles b); [|reflexivity]. unfold find_type. destruct (afind _ m); reflexivity.
  - cbn [add_type add_run]. rewrite outcome_then, <- IH. apply bind_ext. intros [e m1]. now rewrite outcome_wrapper.
  - cbn [add_type add_run]. rewrite outcome_then, <- IH. apply bind_ext. intros [e m1]. now rewrite outcome_wrapper.
  - cbn [add_type add_run]. rewrite outcome_then.
    match goal with |- bind (?go tys m) _ = bind (outcome (?go' tys m)) _ => set (g := go); set (g' := go') end.
    assert (L : forall ts, (forall t, In t ts -> In t tys) -> forall m, g ts m = outcome (g' ts m)).
    { induction ts as [|t ts IHt]; intros Hs m1; [reflexivity|]. cbn [g g']. fold g g'. rewrite outcome_then. rewrite Forall_forall in IH. rewrite (IH t (Hs t (or_introl eq_refl))).
      apply bind_ext. intros [p m2]. rewrite outcome_then, (IHt (fun x H => Hs x (or_intror H))). apply bind_ext. intros [ps m3]. reflexivity. }
    rewrite (L tys (fun t H => H)). apply bind_ext. intros [ps m1]. reflexivity.
  - cbn [add_type add_run]. destruct (try_emplace nm (AStruct []) m) as [m0 ins]. destruct ins; [|reflexivity].
    match goal with |- bind (?go fs m0) _ = outcome (?go' fs m0) => set (g := go); set (g' := go') end.
    assert (L : forall l, (forall f, In f l -> In f fs) -> forall m, (let* m' := g l m in Ok (nm, m')) = outcome (g' l m)).
    { induction l as [|f l IHl]; intros Hs m1; [reflexivity|]. cbn [g g']. fold g g'. rewrite outcome_then. rewrite Forall_forall in IH. rewrite (IH f (Hs f (or_introl eq_refl))), bind_assoc.
      apply bind_ext. intros [p m2]. destruct (push_field nm (fst f, p) m2) as [m3|e|w]; [|reflexivity|reflexivity]. cbn [bind]. apply (IHl (fun x H => Hs x (or_intror H))). }
    apply (L fs (fun f H => H)).
  - cbn [add_type add_run]. rewrite outcome_then, <- IH. apply bind_ext. intros [e m1]. now rewrite outcome_wrapper.
  - cbn [add_type add_run]. unfold find_type. destruct (afind _ m); reflexivity.
  - cbn [add_type add_run]. unfold find_type. destruct (afind _ m); reflexivity.
Qed.
Lemma run_of_type t m p m' : add_type t m = Ok (p, m') -> add_run t m = (m', Ok p).
Proof. rewrite run_outcome. destruct (add_run t m) as [m1 [q|e|w]]; cbn [outcome bind]; intros H; congruence. Qed.

(** ** Depths: a type has another name than what it is made of *)
Fixpoint depth (t : jty) : nat :=
  S match t with
    | JVec t | JOpt t | JMaybe t => depth t
    | JVariant ts => list_max (map depth ts)
    | JStruct _ fs => list_max (map (fun f => depth (snd f)) fs)
    | _ => O
    end.
Lemma depth_children t : depth t = S (list_max (map depth (children t))).
Proof. destruct t; cbn [depth children map list_max fold_right]; rewrite ?map_map, ?Nat.max_0_r; reflexivity. Qed.
Lemma depth_child t c : In c (children t) -> (depth c < depth t)%nat.
Proof.
  intros H. rewrite (depth_children t). pose proof (proj1 (list_max_le (map depth (children t)) _) (le_n _)) as F. rewrite Forall_map, Forall_forall in F.
  specialize (F c H). lia.
Qed.
Lemma depth_part : forall t u, In u (parts t) -> (depth u <= depth t)%nat.
Proof.
  assert (X : forall n t, (depth t < n)%nat -> forall u, In u (parts t) -> (depth u <= depth t)%nat).
  { induction n as [|n IH]; intros t H u Hu; [lia|]. apply parts_down in Hu as [->|(c & Hc & Hu)]; [lia|]. pose proof (depth_child t c Hc) as D. specialize (IH c ltac:(lia) u Hu). lia. }
  intros t. apply (X (S (depth t)) t). lia.
Qed.
Lemma well_nested_part t u : In u (parts t) -> well_nested t = true -> well_nested u = true.
Proof.
  assert (X : forall n t, (depth t < n)%nat -> forall u, In u (parts t) -> well_nested t = true -> well_nested u = true).
  { induction n as [|n IH]; intros x H y Hy W; [lia|]. apply parts_down in Hy as [->|(c & Hc & Hy)]; [exact W|]. pose proof (depth_child x c Hc) as D.
    apply (IH c ltac:(lia) y Hy). destruct (well_nested c) eqn:Wc; [reflexivity|]. pose proof (well_nested_child x c Hc Wc). congruence. }
  apply (X (S (depth t)) t). lia.
Qed.
Lemma well_nested_all t : nests t = true -> (forall c, In c (children t) -> well_nested c = true) -> well_nested t = true.
Proof.
  intros N C. unfold well_nested. apply forallb_forall. intros u Hu. apply parts_down in Hu as [->|(c & Hc & Hu)]; [exact N|].
  specialize (C c Hc). unfold well_nested in C. rewrite forallb_forall in C. auto.
Qed.
Lemma well_nested_self t : well_nested t = true -> nests t = true.
Proof. unfold well_nested. rewrite forallb_forall. intros H. apply H, parts_self. Qed.
Lemma before_all {A} (ok : A -> bool) l : (forall x, In x l -> ok x = true) -> before ok l = l.
Proof. induction l as [|x l IH]; intros H; [reflexivity|]. cbn [before]. rewrite (H x (or_introl eq_refl)), IH; [reflexivity|]. intros y Hy. apply H. now right. Qed.
Lemma before_cut {A} (ok : A -> bool) l x r : (forall y, In y l -> ok y = true) -> ok x = false -> before ok (l ++ x :: r) = l.
Proof. induction l as [|y l IH]; intros H X; cbn [app before]; [now rewrite X|]. rewrite (H y (or_introl eq_refl)), IH; [reflexivity| |exact X]. intros z Hz. apply H. now right. Qed.
Lemma remains_whole u : well_nested u = true -> remains u = shape u.
Proof.
  intros W. destruct u; try reflexivity. cbn [remains shape]. rewrite before_all; [reflexivity|]. intros f Hf.
  assert (Hc : In (snd f) (children (JStruct name fs))) by (cbn [children]; now apply in_map).
  apply (well_nested_part (JStruct name fs)); [|exact W]. eapply parts_child; [exact Hc|apply parts_self].
Qed.

Section Run.
  Variable P : jty -> Prop.
  Hypothesis P_closed : forall u c, P u -> In c (children u) -> P c.
  Hypothesis P_names : forall u u', P u -> P u' -> abi_name u = abi_name u' -> shape u = shape u'.

  Lemma P_part : forall t u, P t -> In u (parts t) -> P u.
  Proof.
    assert (X : forall n t, (depth t < n)%nat -> P t -> forall u, In u (parts t) -> P u).
    { induction n as [|n IH]; intros t H Pt u Hu; [lia|]. apply parts_down in Hu as [->|(c & Hc & Hu)]; [exact Pt|]. pose proof (depth_child t c Hc) as D.
      apply (IH c ltac:(lia) (P_closed _ _ Pt Hc) u Hu). }
    intros t u Pt. apply (X (S (depth t)) t); [lia|exact Pt].
  Qed.
  Lemma same_depth : forall u u', P u -> P u' -> abi_name u = abi_name u' -> depth u = depth u'.
  Proof.
    assert (X : forall n u u', (depth u < n)%nat -> P u -> P u' -> abi_name u = abi_name u' -> depth u = depth u').
    { induction n as [|n IH]; intros u u' H Pu Pu' E; [lia|]. pose proof (P_names _ _ Pu Pu' E) as Sh.
      assert (Ch : map abi_name (children u) = map abi_name (children u')) by (rewrite <- !shape_pointers; congruence).
      rewrite (depth_children u), (depth_children u'). f_equal. f_equal.
      assert (L : forall l l', (forall c, In c l -> P c /\ (depth c < n)%nat) -> (forall c, In c l' -> P c) -> map abi_name l = map abi_name l' -> map depth l = map depth l').
      { induction l as [|c l IHl]; intros [|c' l'] H1 H2 M; try discriminate; [reflexivity|]. cbn [map] in *. destruct (H1 c (or_introl eq_refl)) as [Pc Dc].
        f_equal; [apply IH; [exact Dc|exact Pc|apply H2; now left|congruence]|]. apply IHl; [intros x Hx; apply H1; now right|intros x Hx; apply H2; now right|congruence]. }
      apply L; [|intros c Hc; exact (P_closed u' c Pu' Hc)|exact Ch]. intros c Hc. split; [exact (P_closed u c Pu Hc)|]. pose proof (depth_child u c Hc). lia. }
    intros u u'. apply (X (S (depth u)) u u'). lia.
  Qed.

  Definition partial (u : jty) (d : adata) : Prop := d = shape u \/ incomplete u d.
  Record WInv (m : amap) : Prop := {
    w_sound : sound_map m;
    w_scalars : scalars m;
    w_agree : forall u d, P u -> afind (abi_name u) m = Some d -> partial u d
  }.
  Lemma partial_kind u d : partial u d -> is_optional_array_extension d = wraps u /\ is_extension d = negb (named u) /\ forall r, d <> AAlias r.
  Proof.
    intros [->|X].
    - rewrite wraps_shape, ext_shape. split; [reflexivity|]. split; [reflexivity|apply shape_not_alias].
    - destruct u; try contradiction. destruct X as (k & _ & ->). split; [reflexivity|]. split; [reflexivity|discriminate].
  Qed.
  Lemma partial_name u u' d : P u -> P u' -> abi_name u = abi_name u' -> partial u d -> partial u' d.
  Proof.
    intros Pu Pu' E [->|X]; [left; auto|]. pose proof (P_names _ _ Pu Pu' E) as Sh. destruct u; try contradiction. destruct u'; try discriminate Sh. right.
    destruct X as (k & K & ->). cbn [shape] in Sh. assert (S' : map (fun f : bytes * jty => (fst f, abi_name (snd f))) fs = map (fun f => (fst f, abi_name (snd f))) fs0) by congruence.
    exists k. rewrite <- !firstn_map, S'. split; [|reflexivity]. apply (f_equal (@List.length _)) in S'. rewrite !map_length in S'. lia.
  Qed.
  Definition full (h : nat) (m : amap) : Prop := forall u d, P u -> (depth u <= h)%nat -> afind (abi_name u) m = Some d -> d = shape u.
  Definition new (ps : list jty) (m m' : amap) : Prop := forall k d, afind k m = None -> afind k m' = Some d ->
    exists u, In u ps /\ k = abi_name u /\ d = remains u /\ (well_nested u = true \/ is_struct u).
  Lemma new_refl ps m : new ps m m. Proof. intros k d H H'. congruence. Qed.
  Lemma new_trans ps qs rs m1 m2 m3 : incl ps rs -> incl qs rs -> mono m2 m3 -> new ps m1 m2 -> new qs m2 m3 -> new rs m1 m3.
  Proof.
    intros I1 I2 M A B k d H H'. destruct (afind k m2) as [e|] eqn:K.
    - pose proof (M _ _ K) as X. assert (e = d) by congruence. subst e. destruct (A k d H K) as (u & Hu & R). exists u. auto.
    - destruct (B k d K H') as (u & Hu & R). exists u. auto.
  Qed.
  Lemma new_incl ps qs m m' : incl ps qs -> new ps m m' -> new qs m m'.
  Proof. intros I A k d H H'. destruct (A k d H H') as (u & Hu & R). exists u. auto. Qed.
  Lemma full_stays h m m' t : P t -> mono m m' -> new (parts t) m m' -> well_nested t = true -> full h m -> full h m'.
  Proof.
    intros Pt M N W F u d Pu D H. destruct (afind (abi_name u) m) as [e|] eqn:K.
    - pose proof (M _ _ K) as X. assert (e = d) by congruence. subst e. eauto.
    - destruct (N _ _ K H) as (x & Hx & En & -> & _). rewrite (remains_whole x (well_nested_part t x Hx W)). apply P_names; [exact (P_part t x Pt Hx)|exact Pu|auto].
  Qed.
  Lemma full_le h h' m : (h <= h')%nat -> full h' m -> full h m.
  Proof. intros L F u d Pu D. apply F; [exact Pu|lia]. Qed.

  Definition rgood (t : jty) (m : amap) (x : amap * res bytes) : Prop :=
    let (m', r) := x in
    WInv m' /\ (mono m m' /\ grown P m m') /\
    match r with Ok p => p = abi_name t /\ afind (abi_name t) m' <> None | Err e => e = E_invalid_nesting /\ well_nested t = false | Undef _ => False end /\
    (full (depth t) m -> new (parts t) m m' /\ (is_ok r = true -> well_nested t = true)).

  Lemma winv_insert m u : WInv m -> P u -> entry_ok m (shape u) -> WInv (fst (try_emplace (abi_name u) (shape u) m)).
  Proof.
    intros I Pu D. pose proof (emplace_mono (abi_name u) (shape u) m) as M. constructor.
    - apply emplace_sound; [exact (w_sound _ I)|exact D].
    - intros b. apply M, (w_scalars _ I).
    - intros x d Px H. rewrite afind_try_emplace in H. destruct (afind (abi_name u) m) eqn:K; [eapply w_agree; eauto|].
      destruct (beq (abi_name x) (abi_name u)) eqn:B; [|eapply w_agree; eauto]. apply beq_eq in B. assert (d = shape u) by congruence. subst d. left. now apply P_names.
  Qed.
  Lemma grown_insert m u : P u -> grown P m (fst (try_emplace (abi_name u) (shape u) m)).
  Proof.
    intros Pu k H H'. rewrite afind_try_emplace in H'. destruct (afind (abi_name u) m) eqn:K; [contradiction|].
    destruct (beq k (abi_name u)) eqn:B; [|contradiction]. apply beq_eq in B. eauto.
  Qed.
  Lemma new_insert m u : well_nested u = true -> new [u] m (fst (try_emplace (abi_name u) (shape u) m)).
  Proof.
    intros W k d H H'. rewrite afind_try_emplace in H'. destruct (afind (abi_name u) m) eqn:K; [congruence|]. destruct (beq k (abi_name u)) eqn:B; [|congruence].
    apply beq_eq in B. exists u. split; [now left|]. split; [exact B|]. rewrite (remains_whole u W). split; [congruence|auto].
  Qed.
  Lemma incl_self t : incl [t] (parts t). Proof. intros x [<-|[]]. apply parts_self. Qed.
  Lemma incl_child t c : In c (children t) -> incl (parts c) (parts t). Proof. intros H u. now apply parts_child. Qed.

  Lemma rgood_find t m b : WInv m -> abi_name t = builtin_name b -> well_nested t = true -> rgood t m (m, let* (p, _) := find_type (builtin_name b) m in Ok p).
  Proof.
    intros I N W. unfold find_type. pose proof (w_scalars _ I b) as S. rewrite S. cbn [bind rgood]. rewrite N. split; [exact I|]. split; [split; [apply mono_refl|apply grown_refl]|].
    split; [split; [reflexivity|rewrite S; discriminate]|]. intros _. split; [apply new_refl|auto].
  Qed.
  Lemma rgood_wrap t c m (kind : adata -> bool) :
    children t = [c] -> P t -> WInv m -> nests t = negb (kind (shape c)) -> (forall d, partial c d -> kind d = kind (shape c)) ->
    (forall m' d, afind (abi_name c) m' = Some d -> kind d = false -> (forall r, d <> AAlias r) -> entry_ok m' (shape t)) ->
    rgood c m (add_run c m) ->
    rgood t m (run_then (add_run c m) (fun e m => add_wrapper kind (abi_name t) (shape t) (abi_name c) m)).
  Proof.
    intros Ch Pt I N K En G. assert (Hc : In c (children t)) by (rewrite Ch; now left). assert (Pc : P c) by (exact (P_closed _ _ Pt Hc)). pose proof (depth_child t c Hc) as Dp.
    destruct (add_run c m) as [m1 [p|e|w]]; cbn [rgood run_then] in *; destruct G as (I1 & [M1 G1] & R & F1); [| |contradiction].
    - destruct R as [-> Pr]. destruct (afind (abi_name c) m1) as [d|] eqn:Fd; [|contradiction]. unfold add_wrapper, deref. rewrite Fd. cbn [bind].
      pose proof (w_agree _ I1 c d Pc Fd) as Pa. pose proof (K d Pa) as Kd. destruct (kind d) eqn:D; cbn [negb check rgood].
      + split; [exact I1|]. split; [split; [exact M1|exact G1]|]. split.
        * split; [reflexivity|]. destruct (well_nested t) eqn:W; [|reflexivity]. apply well_nested_self in W. rewrite N, <- Kd in W. discriminate W.
        * intros F. destruct (F1 (full_le _ _ _ (Nat.lt_le_incl _ _ Dp) F)) as [N1 _]. split; [|discriminate]. eapply new_incl; [apply incl_child; exact Hc|exact N1].
      + pose proof (emplace_mono (abi_name t) (shape t) m1) as M2. split; [apply winv_insert; auto; eapply En; eauto; now apply (partial_kind c)|]. split; [split; [eapply mono_trans; eauto|eapply grown_trans; [exact G1|now apply grown_insert]]|].
        split; [split; [reflexivity|apply emplace_present]|]. intros F. destruct (F1 (full_le _ _ _ (Nat.lt_le_incl _ _ Dp) F)) as [N1 W1]. specialize (W1 eq_refl).
        assert (W : well_nested t = true). { apply well_nested_all; [rewrite N, <- Kd; reflexivity|]. intros x Hx. rewrite Ch in Hx. destruct Hx as [<-|[]]. exact W1. }
        split; [|auto]. eapply new_trans; [apply incl_child; exact Hc|apply incl_self|exact M2|exact N1|now apply new_insert].
    - destruct R as [-> W]. cbn [rgood]. split; [exact I1|]. split; [split; [exact M1|exact G1]|]. split; [split; [reflexivity|]; eapply well_nested_child; eauto|].
      intros F. destruct (F1 (full_le _ _ _ (Nat.lt_le_incl _ _ Dp) F)) as [N1 _]. split; [|discriminate]. eapply new_incl; [apply incl_child; exact Hc|exact N1].
  Qed.
  Lemma run_then_ext {A B} (x : amap * res A) (k k' : A -> amap -> amap * res B) : (forall a m, snd x = Ok a -> k a m = k' a m) -> run_then x k = run_then x k'.
  Proof. intros H. destruct x as [m [a|e|w]]; [apply H; reflexivity|reflexivity|reflexivity]. Qed.

  Lemma run_good : forall t, P t -> addable t = true -> forall m, WInv m -> rgood t m (add_run t m).
  Proof.
    induction t as [b|t IH|t IH|tys IH|nm fs IH|a b IHa IHb|t IH| |t IH|names|k] using jty_ind'; intros Pt A m I; try discriminate A.
    - cbn [addable] in A. cbn [add_run]. rewrite A. now apply rgood_find.
    - cbn [addable] in A. apply andb_true_iff in A as [_ A]. cbn [add_run].
      assert (G : rgood t m (add_run t m)) by (apply IH; auto; eapply P_closed; [exact Pt|left; reflexivity]).
      rewrite (run_then_ext _ _ (fun e m => add_wrapper is_optional_array_extension (abi_name (JVec t)) (shape (JVec t)) (abi_name t) m)).
      + apply rgood_wrap; auto.
        * cbn [nests]. now rewrite wraps_shape.
        * intros d Hd. rewrite wraps_shape. now apply partial_kind.
        * intros m' d F Kd Na. split; [reflexivity|]. split; [intros q [<-|[]]; eauto|]. cbn [shape]. intros e He. congruence.
      + intros e m1 E. destruct (add_run t m) as [m2 r]. cbn [snd] in E. subst r. destruct G as (_ & _ & [-> _] & _). reflexivity.
    - cbn [addable] in A. apply andb_true_iff in A as [_ A]. cbn [add_run].
      assert (G : rgood t m (add_run t m)) by (apply IH; auto; eapply P_closed; [exact Pt|left; reflexivity]).
      rewrite (run_then_ext _ _ (fun e m => add_wrapper is_optional_array_extension (abi_name (JOpt t)) (shape (JOpt t)) (abi_name t) m)).
      + apply rgood_wrap; auto.
        * cbn [nests]. now rewrite wraps_shape.
        * intros d Hd. rewrite wraps_shape. now apply partial_kind.
        * intros m' d F Kd Na. split; [reflexivity|]. split; [intros q [<-|[]]; eauto|]. cbn [shape]. intros e He. congruence.
      + intros e m1 E. destruct (add_run t m) as [m2 r]. cbn [snd] in E. subst r. destruct G as (_ & _ & [-> _] & _). reflexivity.
    - cbn [addable] in A. cbn [add_run].
      match goal with |- rgood _ _ (run_then (?g tys m) _) => set (go := g) end.
      assert (L : forall ts, incl ts tys -> forall m, WInv m ->
        let (m', r) := go ts m in WInv m' /\ (mono m m' /\ grown P m m') /\
        match r with
        | Ok ps => ps = map (fun t => (abi_name t, abi_name t)) ts /\ (forall t, In t ts -> afind (abi_name t) m' <> None)
        | Err e => e = E_invalid_nesting /\ well_nested (JVariant tys) = false
        | Undef _ => False
        end /\
        (full (depth (JVariant tys)) m -> new (parts (JVariant tys)) m m' /\ (is_ok r = true -> forall t, In t ts -> well_nested t = true))).
      { induction ts as [|t ts IHts]; intros In_ m1 I1; cbn [go]; fold go.
        - split; [exact I1|]. split; [split; [apply mono_refl|apply grown_refl]|]. split; [split; [reflexivity|intros ? []]|]. intros _. split; [apply new_refl|intros _ ? []].
        - assert (Ht : In t tys) by (apply In_; left; reflexivity). rewrite forallb_forall in A. pose proof (A t Ht) as At. apply andb_true_iff in At as [_ At].
          assert (Hc : In t (children (JVariant tys))) by exact Ht. pose proof (depth_child _ _ Hc) as Dp.
          rewrite Forall_forall in IH. pose proof (IH t Ht (P_closed _ _ Pt Ht) At m1 I1) as G.
          destruct (add_run t m1) as [m2 [p|e|w]]; cbn [rgood run_then] in *; destruct G as (I2 & [M2 G2] & R2 & F2); [| |contradiction].
          + destruct R2 as [-> Pr2]. specialize (IHts (fun x Hx => In_ x (or_intror Hx)) m2 I2).
            assert (Fs : full (depth (JVariant tys)) m1 -> full (depth (JVariant tys)) m2 /\ new (parts t) m1 m2 /\ well_nested t = true).
            { intros F. destruct (F2 (full_le _ _ _ (Nat.lt_le_incl _ _ Dp) F)) as [N2 W2]. specialize (W2 eq_refl). split; [|auto].
              eapply (full_stays _ m1 m2 t); eauto. }
            destruct (go ts m2) as [m3 [ps|e|w]]; cbn [run_then]; destruct IHts as (I3 & [M3 G3] & R3 & F3); [| |contradiction].
            * destruct R3 as [-> Pr3]. split; [exact I3|]. split; [split; [eapply mono_trans; eauto|eapply grown_trans; eauto]|]. split.
              -- split; [reflexivity|]. intros x [<-|Hx]; [|auto]. destruct (afind (abi_name t) m2) eqn:E; [rewrite (M3 _ _ E); discriminate|contradiction].
              -- intros F. destruct (Fs F) as (Fm & N2 & W2). destruct (F3 Fm) as [N3 W3]. split; [|intros _ x [<-|Hx]; auto; exact (W3 eq_refl x Hx)].
                 eapply new_trans; [apply incl_child; exact Hc|apply incl_refl|exact M3|exact N2|exact N3].
            * split; [exact I3|]. split; [split; [eapply mono_trans; eauto|eapply grown_trans; eauto]|]. split; [exact R3|]. intros F. destruct (Fs F) as (Fm & N2 & W2). destruct (F3 Fm) as [N3 _]. split; [|discriminate].
              eapply new_trans; [apply incl_child; exact Hc|apply incl_refl|exact M3|exact N2|exact N3].
          + destruct R2 as [-> W]. split; [exact I2|]. split; [split; [exact M2|exact G2]|]. split; [split; [reflexivity|]; eapply well_nested_child; eauto|].
            intros F. destruct (F2 (full_le _ _ _ (Nat.lt_le_incl _ _ Dp) F)) as [N2 _]. split; [|discriminate]. eapply new_incl; [apply incl_child; exact Hc|exact N2]. }
      specialize (L tys (incl_refl _) m I). destruct (go tys m) as [m1 [ps|e|w]]; cbn [run_then]; destruct L as (I1 & [M1 G1] & R1 & F1); [| |contradiction].
      + destruct R1 as [-> Pr1]. change (rgood (JVariant tys) m (fst (try_emplace (abi_name (JVariant tys)) (shape (JVariant tys)) m1), Ok (abi_name (JVariant tys)))).
        pose proof (emplace_mono (abi_name (JVariant tys)) (shape (JVariant tys)) m1) as M2. cbn [rgood]. split; [|split; [split; [eapply mono_trans; eauto|eapply grown_trans; [exact G1|now apply grown_insert]]|split; [split; [reflexivity|apply emplace_present]|]]].
        * apply winv_insert; auto. split; [reflexivity|]. split; [|exact Logic.I]. rewrite shape_pointers. intros q Hq. apply in_map_iff in Hq as (t & <- & Ht).
          destruct (afind (abi_name t) m1) as [d|] eqn:F; [|exfalso; eapply Pr1; eauto]. exists d. split; [reflexivity|]. apply (partial_kind t d). apply (w_agree _ I1 t d (P_closed _ _ Pt Ht) F).
        * intros F. destruct (F1 F) as [N1 W1]. assert (W : well_nested (JVariant tys) = true) by (apply well_nested_all; [reflexivity|exact (W1 eq_refl)]). split; [|auto].
          eapply new_trans; [apply incl_refl|apply incl_self|exact M2|exact N1|now apply new_insert].
      + cbn [rgood]. split; [exact I1|]. split; [split; [exact M1|exact G1]|]. split; [exact R1|]. intros F. destruct (F1 F) as [N1 _]. split; [exact N1|discriminate].
    - cbn [addable] in A. cbn [add_run]. unfold try_emplace. destruct (afind nm m) as [d0|] eqn:F0.
      { cbn [rgood abi_name type_name]. split; [exact I|]. split; [split; [apply mono_refl|apply grown_refl]|]. split; [split; [reflexivity|congruence]|]. intros F. split; [apply new_refl|]. intros _.
        assert (X : forall u d, In u (parts (JStruct nm fs)) -> afind (abi_name u) m = Some d -> d = shape u).
        { intros u d Hu Hd. apply F; [exact (P_part _ u Pt Hu)|now apply depth_part|exact Hd]. }
        assert (Pr : afind (abi_name (JStruct nm fs)) m <> None) by (cbn [abi_name type_name]; congruence).
        pose proof (describes_down m (JStruct nm fs) (w_sound _ I) X Pr) as D.
        unfold well_nested. apply forallb_forall. intros u Hu. pose proof (D u Hu) as E. pose proof (w_sound _ I) as S'. rewrite sound_entries in S'. destruct (S' _ _ E) as (_ & _ & N).
        destruct u; try reflexivity; cbn [nests shape] in *;
          pose proof (N _ (D _ (parts_closed _ _ _ Hu (or_introl eq_refl)))) as Y; rewrite ?wraps_shape, ?ext_shape in Y; rewrite ?Y; try reflexivity.
        apply negb_false_iff in Y. exact Y. }
      match goal with |- rgood _ _ (?g fs _) => set (go := g) end.
      set (sig := fun f : bytes * jty => (fst f, abi_name (snd f))). set (T := JStruct nm fs) in *.
      assert (Names : forall u, P u -> abi_name u = nm -> depth u = depth T) by (intros u Pu E; apply (same_depth u T Pu Pt); exact E).
      assert (L : forall done todo, fs = done ++ todo -> forall m1, WInv m1 -> afind nm m1 = Some (AStruct (map sig done)) ->
        (forall t, In t (map snd done) -> afind (abi_name t) m1 <> None) ->
        let (m', r) := go todo m1 in
        WInv m' /\ ((forall k d, k <> nm -> afind k m1 = Some d -> afind k m' = Some d) /\ grown P m1 m') /\
        match r with
        | Ok p => p = nm /\ afind nm m' = Some (AStruct (map sig fs))
        | Err e => e = E_invalid_nesting /\ well_nested T = false
        | Undef _ => False
        end /\
        (full (depth T - 1) m1 -> (forall f, In f done -> well_nested (snd f) = true) ->
           (forall k d, k <> nm -> afind k m1 = None -> afind k m' = Some d -> exists u, In u (parts T) /\ k = abi_name u /\ d = remains u /\ (well_nested u = true \/ is_struct u)) /\
           afind nm m' = Some (remains T) /\ (is_ok r = true -> forall f, In f fs -> well_nested (snd f) = true))).
      { intros done todo. revert done. induction todo as [|f todo IHt]; intros done E m1 I1 Fn Pr; cbn [go].
        - rewrite app_nil_r in E. subst done. split; [exact I1|]. split; [split; [auto|apply grown_refl]|]. split; [auto|]. intros _ W. split; [intros; congruence|]. split; [|auto]. rewrite Fn. unfold T. cbn [remains].
          rewrite before_all; [reflexivity|exact W].
        - fold go. assert (Hf : In f fs) by (rewrite E; apply in_or_app; right; left; reflexivity).
          assert (Hc : In (snd f) (children T)) by (unfold T; cbn [children]; apply in_map; exact Hf). pose proof (depth_child _ _ Hc) as Dp.
          rewrite forallb_forall in A. rewrite Forall_forall in IH. pose proof (IH f Hf (P_closed _ _ Pt Hc) (A f Hf) m1 I1) as G.
          destruct (add_run (snd f) m1) as [m2 [p|e|w]]; cbn [rgood run_then] in *; destruct G as (I2 & [M2 G2] & R2 & F2); [| |contradiction].
          2: { destruct R2 as [-> W2]. split; [exact I2|]. split; [split; [intros k d _; apply M2|exact G2]|]. split; [split; [reflexivity|]; eapply well_nested_child; eauto|].
               intros F W. destruct (F2 (full_le (depth (snd f)) (depth T - 1) _ ltac:(lia) F)) as [N2 _]. split; [|split; [|discriminate]].
               - intros k d _ H H'. destruct (N2 k d H H') as (u & Hu & R). exists u. split; [eapply parts_child; eauto|exact R].
               - rewrite (M2 _ _ Fn). unfold T. cbn [remains]. rewrite E, before_cut; [reflexivity|exact W|exact W2]. }
          destruct R2 as [-> Pr2]. pose proof (M2 _ _ Fn) as Fn2. unfold push_field. rewrite Fn2.
          set (m3 := aset nm (AStruct (map sig done ++ [(fst f, abi_name (snd f))])) m2).
          assert (A3 : forall k, afind k m3 = if beq k nm then Some (AStruct (map sig (done ++ [f]))) else afind k m2).
          { intros k. unfold m3. rewrite (afind_set_struct nm (map sig done) _ m2 k Fn2), map_app. reflexivity. }
          assert (Pres : forall k, afind k m2 <> None -> afind k m3 <> None) by (intros k Hk; rewrite A3; destruct (beq k nm); [discriminate|exact Hk]).
          assert (Some_ : forall x, afind x m2 <> None -> exists d, afind x m2 = Some d) by (intros x; destruct (afind x m2); [eauto|congruence]).
          assert (PrD : forall t, In t (map snd (done ++ [f])) -> afind (abi_name t) m2 <> None).
          { intros t Ht. rewrite map_app in Ht. apply in_app_iff in Ht as [Ht|[<-|[]]]; [|exact Pr2]. specialize (Pr t Ht).
            destruct (afind (abi_name t) m1) eqn:F; [rewrite (M2 _ _ F); discriminate|contradiction]. }
          assert (Ptd : partial T (AStruct (map sig (done ++ [f])))).
          { destruct todo as [|g todo]; [left; unfold T; cbn [shape]; rewrite E; reflexivity|]. right. unfold T. cbn [incomplete]. exists (List.length (done ++ [f])). rewrite E. split.
            - rewrite !app_length. cbn [List.length]. lia.
            - replace (done ++ f :: g :: todo) with ((done ++ [f]) ++ g :: todo) by (rewrite <- app_assoc; reflexivity). rewrite firstn_app, Nat.sub_diag, firstn_all. cbn [firstn]. now rewrite app_nil_r. }
          assert (I3 : WInv m3).
          { constructor.
            - apply (set_struct_sound nm (map sig done)); [exact (w_sound _ I2)|exact Fn2|]. intros q Hq.
              assert (Ht : exists t, In t (map snd (done ++ [f])) /\ q = abi_name t).
              { rewrite map_app in Hq. apply in_app_iff in Hq as [Hq|[<-|[]]].
                - rewrite map_map in Hq. apply in_map_iff in Hq as (g & <- & Hg). exists (snd g). split; [apply in_map, in_or_app; auto|reflexivity].
                - exists (snd f). split; [apply in_map, in_or_app; right; left; reflexivity|reflexivity]. }
              destruct Ht as (t & Ht & ->). destruct (Some_ _ (PrD t Ht)) as [d Hd]. exists d. split; [exact Hd|].
              assert (Pt' : P t). { eapply P_closed; [exact Pt|]. unfold T. cbn [children]. rewrite E, map_app. rewrite map_app in Ht. apply in_app_iff in Ht as [Ht|[<-|[]]]; apply in_or_app; [auto|right; left; reflexivity]. }
              apply (partial_kind t d). apply (w_agree _ I2 t d Pt' Hd).
            - intros b. rewrite A3. destruct (beq (builtin_name b) nm) eqn:B; [|apply (w_scalars _ I2)]. apply beq_eq in B.
              exfalso. pose proof (w_scalars _ I b) as S. rewrite B in S. congruence.
            - intros u d Pu H. rewrite A3 in H. destruct (beq (abi_name u) nm) eqn:B; [|eapply w_agree; eauto].
              apply beq_eq in B. assert (d = AStruct (map sig (done ++ [f]))) by congruence. subst d. apply (partial_name T u); auto. }
          specialize (IHt (done ++ [f])). rewrite <- app_assoc in IHt. specialize (IHt E m3 I3).
          rewrite A3, beq_refl in IHt. specialize (IHt eq_refl (fun t Ht => Pres _ (PrD t Ht))).
          destruct (go todo m3) as [m4 r]. destruct IHt as (I4 & [K4 G4] & R4 & F4). split; [exact I4|]. split; [split|split; [exact R4|]].
          + intros k d Nk Hk. apply K4; [exact Nk|]. rewrite A3. apply beq_neq in Nk. rewrite Nk. apply M2, Hk.
          + eapply grown_trans; [exact G2|]. eapply grown_trans; [|exact G4]. intros k H H'. rewrite A3 in H'. destruct (beq k nm) eqn:B; [|contradiction]. apply beq_eq in B. subst k. congruence.
          + intros F W. destruct (F2 (full_le (depth (snd f)) (depth T - 1) _ ltac:(lia) F)) as [N2 W2]. specialize (W2 eq_refl).
            assert (Fm : full (depth T - 1) m2) by (eapply (full_stays _ m1 m2 (snd f)); eauto).
            assert (Fm3 : full (depth T - 1) m3).
            { intros u d Pu D H. rewrite A3 in H. destruct (beq (abi_name u) nm) eqn:B; [|eapply Fm; eauto]. apply beq_eq in B. rewrite (Names u Pu B) in D. unfold T in D. cbn [depth] in D. lia. }
            destruct (F4 Fm3) as (N4 & Rm & W4).
            { intros g Hg. apply in_app_iff in Hg as [Hg|[<-|[]]]; auto. }
            split; [|auto]. intros k d Nk H H'. destruct (afind k m2) as [x|] eqn:X.
            * assert (X4 : afind k m4 = Some x) by (apply K4; [exact Nk|]; rewrite A3; apply beq_neq in Nk; rewrite Nk; exact X). assert (x = d) by congruence. subst x.
              destruct (N2 k d H X) as (u & Hu & R). exists u. split; [eapply parts_child; eauto|exact R].
            * apply (N4 k d Nk); [|exact H']. rewrite A3. apply beq_neq in Nk. rewrite Nk. exact X. }
      assert (A0 : forall k, afind k (ainsert nm (AStruct []) m) = if beq k nm then Some (AStruct []) else afind k m) by (intros k; now apply afind_ainsert).
      assert (I0 : WInv (ainsert nm (AStruct []) m)).
      { pose proof (emplace_mono nm (AStruct []) m) as M. pose proof (emplace_sound nm (AStruct []) m (w_sound _ I)) as S. unfold try_emplace in M, S. rewrite F0 in M, S. cbn [fst] in M, S. constructor.
        - apply S. split; [reflexivity|]. split; [intros q []|exact Logic.I].
        - intros b. apply M, (w_scalars _ I).
        - intros u d Pu H. rewrite A0 in H. destruct (beq (abi_name u) nm) eqn:B; [|eapply w_agree; eauto]. apply beq_eq in B. assert (d = AStruct []) by congruence. subst d.
          apply (partial_name T u); auto. unfold T. destruct fs as [|f fs']; [left; reflexivity|right]. exists O. split; [cbn; lia|reflexivity]. }
      specialize (L [] fs eq_refl _ I0). rewrite A0, beq_refl in L. specialize (L eq_refl (fun t X => match X with end)).
      cbv iota. destruct (go fs (ainsert nm (AStruct []) m)) as [m1 r]. destruct L as (I1 & [K1 G1] & R1 & F1). cbn [rgood].
      split; [exact I1|]. split; [split|split].
      + intros k d Hk. apply K1; [intros ->; congruence|]. rewrite A0. destruct (beq k nm) eqn:B; [apply beq_eq in B; subst; congruence|exact Hk].
      + eapply grown_trans; [|exact G1]. intros k H H'. rewrite A0 in H'. destruct (beq k nm) eqn:B; [|contradiction]. apply beq_eq in B. exists T. auto.
      + destruct r as [p|e|w]; [|exact R1|exact R1]. destruct R1 as [-> Fn]. split; [reflexivity|]. unfold T. cbn [abi_name type_name]. congruence.
      + intros F. destruct F1 as (N1 & Rm & W1).
        { intros u d Pu D H. rewrite A0 in H. destruct (beq (abi_name u) nm) eqn:B.
          - apply beq_eq in B. rewrite (Names u Pu B) in D. unfold T in D. cbn [depth] in D. lia.
          - apply F; [exact Pu|lia|exact H]. }
        { intros f []. }
        split.
        * intros k d H H'. destruct (beq k nm) eqn:B.
          -- apply beq_eq in B. subst k. exists T. split; [apply parts_self|]. split; [reflexivity|]. split; [congruence|]. right. repeat eexists.
          -- apply (N1 k d); [now apply beq_neq|rewrite A0, B; exact H|exact H'].
        * intros Hr. apply well_nested_all; [reflexivity|]. intros c Hc. unfold T in Hc. cbn [children] in Hc. apply in_map_iff in Hc as (f & <- & Hf). auto.
    - cbn [addable] in A. cbn [add_run].
      assert (G : rgood t m (add_run t m)) by (apply IH; auto; eapply P_closed; [exact Pt|left; reflexivity]).
      rewrite (run_then_ext _ _ (fun e m => add_wrapper is_extension (abi_name (JMaybe t)) (shape (JMaybe t)) (abi_name t) m)).
      + apply rgood_wrap; auto.
        * cbn [nests]. rewrite ext_shape, negb_involutive. reflexivity.
        * intros d Hd. rewrite ext_shape. now apply partial_kind.
        * intros m' d F Kd Na. split; [reflexivity|]. split; [intros q [<-|[]]; eauto|]. cbn [shape]. intros e He. congruence.
      + intros e m1 E. destruct (add_run t m) as [m2 r]. cbn [snd] in E. subst r. destruct G as (_ & _ & [-> _] & _). reflexivity.
    - cbn [add_run]. exact (rgood_find JView m B_bytes I eq_refl eq_refl).
    - cbn [add_run]. exact (rgood_find (JOpaque t) m B_bytes I eq_refl eq_refl).
  Qed.
End Run.

(** ** Tables *)
Lemma add_run_good t m : sound_map m -> scalars m -> addable t = true -> compatible m t -> rgood (fun u => In u (parts t)) t m (add_run t m).
Proof.
  intros S Sc A [N C]. apply (run_good (fun u => In u (parts t))); auto.
  - intros u c Hu Hc. eapply parts_closed; eauto.
  - apply parts_self.
  - constructor; auto.
Qed.
Lemma coherent_compatible m t : coherent m t -> compatible m t.
Proof. intros [N C]. split; [exact N|]. intros u d Hu Hd. left. eauto. Qed.
Lemma table_sound m : table m -> sound_map m /\ scalars m.
Proof.
  induction 1 as [a c H|m n T [S Sc]|m t m' r T [S Sc] A C H].
  - eapply convert_scalars; eauto.
  - destruct (get_type_table_sound 32 m n S) as [S' M]. split; [exact S'|]. intros b. apply M, Sc.
  - pose proof (add_run_good t m S Sc A C) as G. rewrite H in G. destruct G as (I & _). split; [exact (w_sound _ _ I)|exact (w_scalars _ _ I)].
Qed.
