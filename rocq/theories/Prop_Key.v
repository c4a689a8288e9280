(** * C23, C24: sortable keys *)
From Verif Require Import Base Stream TypedBin TypedSpec ValOrder TypedBinFacts ToKey ToKeyFacts.

(** [vcmp] (TypedBin.v) is the order of C++ values: integers, false < true, IEEE floats by value
    with -0 = 0, strings by unsigned bytes, containers, tuples and structs lexicographically, empty
    optionals first, variants by alternative then value. NaN has no place in the C++ order; [vcmp]
    puts NaNs outside the infinities, and the theorems say that keys do the same. *)
Definition key_types (env : nat -> ty) (t : ty) : Prop := (forall n, keyable (env n) = true) /\ keyable t = true.

(** key(a) < key(b) iff a < b, key(a) = key(b) iff neither is less. *)
Theorem C23_order : forall env fuel t a b, key_types env t -> wf env fuel t a = true -> wf env fuel t b = true ->
  exists ka kb, convert_to_key env fuel t a [] = Ok ka /\ convert_to_key env fuel t b [] = Ok kb /\ lexcmp ka kb = vcmp a b.
Proof.
  intros env fuel t a b [He K] Ha Hb. destruct (key_order env fuel He t K a b Ha Hb) as (ka & kb & Ea & Eb & O). exists ka, kb.
  rewrite !convert_to_key_eq, Ea, Eb. cbn [bind app]. split; [reflexivity|]. split; [reflexivity|].
  destruct (vcmp a b); cbn [ordk] in O; [subst; apply lexcmp_refl| |]; specialize (O [] []); rewrite !app_nil_r in O; exact O.
Qed.
Print Assumptions C23_order.
(** Measuring, writing into the measured buffer and appending to a vector agree. *)
Theorem C23_two_pass : forall env fuel t v old, 
  convert_to_key env fuel t v old = to_key env fuel t vector_stream v old /\
  (forall bin, to_key env fuel t vector_stream v [] = Ok bin -> to_key env fuel t size_stream v 0%nat = Ok (List.length bin)).
Proof.
  intros env fuel t v old. rewrite convert_to_key_eq, !to_key_vector, to_key_size. split; [reflexivity|]. intros bin H.
  destruct (kenc env fuel t v) as [k| |]; cbn [bind app] in *; try discriminate. assert (k = bin) by congruence. subst. reflexivity.
Qed.
Print Assumptions C23_two_pass.

(** No key is a proper prefix of another key of the type. *)
Theorem C24_prefix_free : forall env fuel t a b ka rest, key_types env t -> wf env fuel t a = true -> wf env fuel t b = true ->
  convert_to_key env fuel t a [] = Ok ka -> convert_to_key env fuel t b [] = Ok (ka ++ rest) -> rest = [] /\ vcmp a b = Eq.
Proof.
  intros env fuel t a b ka rest [He K] Ha Hb E1 E2. destruct (key_order env fuel He t K a b Ha Hb) as (ka' & kb & Ea & Eb & O).
  rewrite convert_to_key_eq, Ea in E1. rewrite convert_to_key_eq, Eb in E2. cbn [bind app] in E1, E2. assert (ka' = ka) by congruence. assert (kb = ka ++ rest) by congruence. subst.
  destruct (vcmp a b); cbn [ordk] in O.
  - rewrite <- (app_nil_r ka) in O at 1. apply app_inv_head in O. auto.
  - exfalso. specialize (O rest []). rewrite app_nil_r, lexcmp_refl in O. discriminate.
  - exfalso. specialize (O rest []). rewrite app_nil_r, lexcmp_refl in O. discriminate.
Qed.
Print Assumptions C24_prefix_free.
(** Keys followed by anything still compare like the values: composite keys compare field by field. *)
Theorem C24_concatenation : forall env fuel t a b ka kb x y, key_types env t -> wf env fuel t a = true -> wf env fuel t b = true ->
  convert_to_key env fuel t a [] = Ok ka -> convert_to_key env fuel t b [] = Ok kb ->
  lexcmp (ka ++ x) (kb ++ y) = match vcmp a b with Eq => lexcmp x y | c => c end.
Proof.
  intros env fuel t a b ka kb x y [He K] Ha Hb E1 E2. destruct (key_order env fuel He t K a b Ha Hb) as (ka' & kb' & Ea & Eb & O).
  rewrite convert_to_key_eq, Ea in E1. rewrite convert_to_key_eq, Eb in E2. cbn [bind app] in E1, E2. assert (ka' = ka) by congruence. assert (kb' = kb) by congruence. subst.
  destruct (vcmp a b); cbn [ordk] in O; auto. subst. apply lexcmp_same.
Qed.
Print Assumptions C24_concatenation.

(** Distinct values have distinct keys, except that -0 and 0 share one. *)
Fixpoint unsign_zeros (v : val) : val :=
  match v with
  | VFloat n b => VFloat n (if b =? 2 ^ (8 * Z.of_nat n - 1) then 0 else b)
  | VList l => VList (map unsign_zeros l)
  | VOpt (Some x) => VOpt (Some (unsign_zeros x))
  | VVar i x => VVar i (unsign_zeros x)
  | _ => v
  end.
Fixpoint bits_ok (v : val) : bool :=
  match v with
  | VFloat n b => (Nat.eqb n 4 || Nat.eqb n 8) && fits_u (8 * Z.of_nat n) b
  | VList l => forallb bits_ok l
  | VOpt (Some x) => bits_ok x
  | VVar _ x => bits_ok x
  | _ => true
  end.
Lemma forallb_imp {A} (f g : A -> bool) l : (forall x, f x = true -> g x = true) -> forallb f l = true -> forallb g l = true.
Proof. intros H. rewrite !forallb_forall. auto. Qed.
Lemma wf_bits_with ref : (forall n v, ref n v = true -> bits_ok v = true) -> forall t v, wf_with ref t v = true -> bits_ok v = true.
Proof.
  intros Href t. induction t as
    [sg n| |n| | | | |t IH|t IH|t IH|k t IHk IHt|n t IH|n t IH|t IH|ts IH|ts IH|t IH|k t IH|n] using ty_ind'; intros v H;
    try (destruct v; try discriminate; reflexivity).
  - destruct v; try discriminate. cbn [wf_with] in H. cbn [bits_ok]. apply andb_prop in H as [H1 H2]. apply andb_prop in H1 as [H1 H3]. apply Nat.eqb_eq in H1. subst. rewrite H3, H2. reflexivity.
  - destruct v; try discriminate. cbn [wf_with] in H. apply andb_prop in H as [_ H]. exact (forallb_imp _ _ _ IH H).
  - destruct v; try discriminate. cbn [wf_with] in H. apply andb_prop in H as [_ H]. exact (forallb_imp _ _ _ IH H).
  - destruct v; try discriminate. cbn [wf_with] in H. apply andb_prop in H as [H _]. apply andb_prop in H as [_ H]. exact (forallb_imp _ _ _ IH H).
  - destruct v; try discriminate. cbn [wf_with] in H. apply andb_prop in H as [H _]. apply andb_prop in H as [_ H]. cbn [bits_ok]. refine (forallb_imp _ _ _ _ H).
    intros x Hx. destruct x as [| | | |[|a [|b [|]]]| |]; try discriminate. apply andb_prop in Hx as [H1 H2]. cbn [bits_ok forallb]. rewrite (IHk a H1), (IHt b H2). reflexivity.
  - destruct v; try discriminate. cbn [wf_with] in H. apply andb_prop in H as [_ H]. exact (forallb_imp _ _ _ IH H).
  - destruct v; try discriminate. cbn [wf_with] in H. apply andb_prop in H as [_ H]. exact (forallb_imp _ _ _ IH H).
  - destruct v as [| | | | |[x|]|]; try discriminate; [|reflexivity]. exact (IH x H).
  - destruct v; try discriminate. cbn [wf_with] in H. apply andb_prop in H as [_ H]. cbn [bits_ok]. revert i H. clear - IH. induction IH as [|t ts Ht _ IHts]; intros i H; cbn [map nthz] in H; [discriminate|].
    destruct (i =? 0); [exact (Ht v H)|exact (IHts _ H)].
  - destruct v; try discriminate. cbn [wf_with] in H. cbn [bits_ok]. revert l H. clear - IH. induction IH as [|t ts Ht _ IHts]; intros [|x l] H; cbn [map forallb2] in H; try discriminate; [reflexivity|].
    apply andb_prop in H as [H1 H2]. cbn [forallb]. rewrite (Ht x H1), (IHts l H2). reflexivity.
  - assert (W : maybe_ok t && wf_with ref t v = true) by (destruct v; exact H). apply andb_prop in W as [_ W]. auto.
  - apply IH. destruct v; exact H.
  - apply (Href n). destruct v; exact H.
Qed.
Lemma wf_bits env fuel t v : wf env fuel t v = true -> bits_ok v = true.
Proof.
  revert t v. induction fuel as [|fuel IH]; intros t v; rewrite wf_unfold; apply wf_bits_with; intros n x H; [discriminate|exact (IH _ _ H)].
Qed.
Lemma lexl_Eq_map a : forall b, Forall (fun x => forall y, bits_ok x = true -> bits_ok y = true -> vcmp x y = Eq -> unsign_zeros x = unsign_zeros y) a ->
  forallb bits_ok a = true -> forallb bits_ok b = true -> lexl vcmp a b = Eq -> map unsign_zeros a = map unsign_zeros b.
Proof.
  induction a as [|x a IH]; intros [|y b] HF Ha Hb H; cbn [lexl map forallb] in *; try discriminate; [reflexivity|]. inversion HF as [|? ? F1 F2]; subst.
  apply andb_prop in Ha as [A1 A2]. apply andb_prop in Hb as [B1 B2]. destruct (vcmp x y) eqn:E; try discriminate. rewrite (F1 y A1 B1 E), (IH b F2 A2 B2 H). reflexivity.
Qed.
Lemma lexcmp_Eq a : forall b, lexcmp a b = Eq -> a = b.
Proof. induction a as [|x a IH]; intros [|y b] H; cbn [lexcmp] in H; try discriminate; [reflexivity|]. destruct (x ?= y) eqn:E; try discriminate. apply Z.compare_eq in E. rewrite E, (IH b H). reflexivity. Qed.
Lemma vcmp_Eq a : forall b, bits_ok a = true -> bits_ok b = true -> vcmp a b = Eq -> unsign_zeros a = unsign_zeros b.
Proof.
  induction a as [z|x|n x|s|l IH| |v IH|i v IH] using val_ind'; intros b Ha Hb H; destruct b as [z'|x'|n' x'|s'|l'|[v'|]|i' v']; try discriminate.
  - cbn [vcmp] in H. apply Z.compare_eq in H. subst. reflexivity.
  - cbn [vcmp] in H. apply Z.compare_eq in H. destruct x, x'; try discriminate; reflexivity.
  - cbn [vcmp] in H. destruct (Nat.compare_spec n n') as [->|?|?]; try discriminate. apply Z.compare_eq in H. cbn [bits_ok unsign_zeros] in *. f_equal.
    assert (Hn : (n' = 4 \/ n' = 8)%nat) by lia. unfold fits_u in *.
    assert (P2 : 2 ^ (8 * Z.of_nat n') = 2 * 2 ^ (8 * Z.of_nat n' - 1)) by (rewrite <- Z.pow_succ_r by lia; f_equal; lia).
    assert (P : 0 < 2 ^ (8 * Z.of_nat n' - 1)) by (apply Z.pow_pos_nonneg; lia).
    unfold float_rank, float_sign, float_mag in H. remember (2 ^ (8 * Z.of_nat n' - 1)) as M. rewrite P2 in *.
    assert (D : forall b, 0 <= b < 2 * M -> b mod M = if M <=? b then b - M else b).
    { intros b Hb'. destruct (Z.leb_spec M b); [symmetry; apply (Z.mod_unique_pos _ _ 1); lia|apply Z.mod_small; lia]. }
    rewrite (D x), (D x') in H by lia. destruct (M <=? x) eqn:?, (M <=? x') eqn:?, (x =? M) eqn:?, (x' =? M) eqn:?; lia.
  - cbn [vcmp] in H. apply lexcmp_Eq in H. subst. reflexivity.
  - rewrite vcmp_list in H. cbn [unsign_zeros bits_ok] in *. f_equal. apply lexl_Eq_map; auto.
  - reflexivity.
  - cbn [vcmp unsign_zeros bits_ok] in *. do 2 f_equal. auto.
  - cbn [vcmp unsign_zeros bits_ok] in *. destruct (i ?= i') eqn:E; try discriminate. apply Z.compare_eq in E. subst. f_equal. auto.
Qed.
Theorem C24_injective : forall env fuel t a b k, key_types env t -> wf env fuel t a = true -> wf env fuel t b = true ->
  convert_to_key env fuel t a [] = Ok k -> convert_to_key env fuel t b [] = Ok k -> unsign_zeros a = unsign_zeros b.
Proof.
  intros env fuel t a b k Ht Ha Hb Ea Eb. rewrite <- (app_nil_r k) in Eb. destruct (C24_prefix_free env fuel t a b k [] Ht Ha Hb Ea Eb) as [_ E].
  apply vcmp_Eq; eauto using wf_bits.
Qed.
Print Assumptions C24_injective.

(** Non-vacuity: a struct of string, vector of signed bytes, optional, variant, double. *)
Definition key_example_ty : ty :=
  TTuple [TString; TVec (TInt true 1); TOpt (TInt false 2); TVariant [TBool; TFloat 8]; TMap TVaruint32 TString].
Definition key_example_a : val := VList [VStr [97; 0]; VList [VInt (-128); VInt 5]; VOpt (Some (VInt 258)); VVar 1 (VFloat 8 (2 ^ 63)); VList [VList [VInt 300; VStr []]]].
Definition key_example_b : val := VList [VStr [97; 0; 0]; VList []; VOpt None; VVar 0 (VBool true); VList []].
Example C23_example :
  key_types (fun _ => TBool) key_example_ty /\
  wf (fun _ => TBool) 0 key_example_ty key_example_a = true /\ wf (fun _ => TBool) 0 key_example_ty key_example_b = true /\
  vcmp key_example_a key_example_b = Lt /\
  convert_to_key (fun _ => TBool) 0 key_example_ty key_example_a [] =
    Ok ([97; 0; 1; 0; 0] ++ [0; 1; 133; 0; 0] ++ [1; 1; 2] ++ [1; 128; 0; 0; 0; 0; 0; 0; 0] ++ [1; 129; 44; 0; 0; 0]) /\
  convert_to_key (fun _ => TBool) 0 key_example_ty key_example_b [] = Ok ([97; 0; 1; 0; 1; 0; 0] ++ [0; 0] ++ [0] ++ [0; 1] ++ [0]).
Proof. vm_compute. repeat split. Qed.
