(** * ConvertFacts: lemmas about member-wise conversions *)
From Verif Require Import Base TypedBin TypedSpec Abi AbiScalar TypedJson TypedJsonSpec TypedJsonFacts AbiDefJson Convert ConvertSpec.

Lemma same_type_spec : forall t u, same_type t u = true <-> t = u.
Proof.
  induction t as [b|t IH|t IH|ts IH|nm fs IH|a b IHa IHb|t IH| |t IH|names|k] using jty_ind'; intros u; destruct u as [b'|t'|t'|ts'|nm' fs'|a' b'|t'| |t'|names'|k']; cbn [same_type];
    try (split; [discriminate|intros X; discriminate X]); try (rewrite IH; split; congruence); try (split; reflexivity).
  - destruct (builtin_dec b b'); split; congruence.
  - transitivity (ts = ts'); [|split; congruence]. revert ts'. induction IH as [|x l Hx _ IHl]; intros [|y m]; try (split; [discriminate|intros X; discriminate X]); [split; reflexivity|].
    rewrite andb_true_iff, Hx, IHl. split; [intros [-> ->]; reflexivity|intros E; injection E; auto].
  - rewrite andb_true_iff, beq_eq. transitivity (nm = nm' /\ fs = fs'); [|split; [intros [-> ->]; reflexivity|intros E; injection E; auto]].
    enough (G : forall gs, (fix go (l m : list (bytes * jty)) {struct l} : bool :=
         match l, m with
         | [], [] => true
         | x :: l', y :: m' => beq (fst x) (fst y) && same_type (snd x) (snd y) && go l' m'
         | _, _ => false
         end) fs gs = true <-> fs = gs) by (rewrite G; reflexivity).
    induction IH as [|x l Hx _ IHl]; intros [|y m]; try (split; [discriminate|intros X; discriminate X]); [split; reflexivity|].
    rewrite !andb_true_iff, beq_eq, Hx, IHl. destruct x, y. cbn [fst snd]. split; [intros [[-> ->] ->]; reflexivity|intros E; injection E; auto].
  - rewrite andb_true_iff, IHa, IHb. split; [intros [-> ->]; reflexivity|intros E; injection E; auto].
  - destruct (list_eq_dec (list_eq_dec Z.eq_dec) names names'); split; congruence.
  - rewrite Nat.eqb_eq. split; congruence.
Qed.
Lemma same_type_refl t : same_type t t = true.
Proof. now apply same_type_spec. Qed.
Lemma same_type_neq t u : same_type t u = false <-> t <> u.
Proof. rewrite <- not_true_iff_false, same_type_spec. reflexivity. Qed.

(** ** Members *)
Lemma member_map {A B} (F : A -> B) n (l : list (bytes * A)) :
  member n (map (fun f => (fst f, F (snd f))) l) = match member n l with Some (i, a) => Some (i, F a) | None => None end.
Proof. induction l as [|[k a] l IH]; cbn [map member fst snd]; [reflexivity|]. destruct (beq n k); [reflexivity|]. rewrite IH. now destruct (member n l) as [[i b]|]. Qed.
Lemma member_None {A} n (l : list (bytes * A)) : member n l = None <-> ~ In n (map fst l).
Proof.
  induction l as [|[k a] l IH]; cbn [member map fst In]; [tauto|]. destruct (beq n k) eqn:B.
  - apply beq_eq in B. subst. split; [discriminate|]. intros H. exfalso. apply H. now left.
  - apply beq_neq in B. destruct (member n l) as [[i b]|]; split; try discriminate; intros H; try (apply IH; tauto).
    + exfalso. assert (Some (i, b) = None) by (apply IH; tauto). discriminate.
    + intros [->|X]; [now apply B|]. now apply IH in X.
Qed.
Lemma member_nth {A} n (l : list (bytes * A)) i a : member n l = Some (i, a) -> nth_error l i = Some (n, a).
Proof.
  revert i. induction l as [|[k b] l IH]; cbn [member]; intros i H; [discriminate|]. destruct (beq n k) eqn:B.
  - apply beq_eq in B. subst. now injection H as <- <-.
  - destruct (member n l) as [[j c]|]; [|discriminate]. injection H as <- <-. cbn [nth_error]. now apply IH.
Qed.
Lemma nth_member {A} n (l : list (bytes * A)) i a : NoDup (map fst l) -> nth_error l i = Some (n, a) -> member n l = Some (i, a).
Proof.
  revert i. induction l as [|[k b] l IH]; intros i N H; [destruct i; discriminate|]. cbn [map fst] in N. inversion_clear N as [|? ? Nk Nl]. cbn [member].
  destruct i as [|i]; cbn [nth_error] in H.
  - injection H as -> ->. now rewrite beq_refl.
  - destruct (beq n k) eqn:B.
    + apply beq_eq in B. subst. exfalso. apply Nk. apply nth_error_In in H. change k with (fst (k, a)). now apply in_map.
    + now rewrite (IH i Nl H).
Qed.
Lemma In_member {A} n a (l : list (bytes * A)) : NoDup (map fst l) -> In (n, a) l -> exists i, member n l = Some (i, a).
Proof. intros N H. apply In_nth_error in H as [i H]. exists i. now apply nth_member. Qed.

(** ** The loop over the members *)
Section Loop.
  Context (from : list (bytes * (jty -> val -> val -> val))) (gs : list (bytes * jty)) (l : list val).
  Definition step (m : list val) (n : bytes) : list val :=
    match member n from, member n gs with
    | Some (i, f), Some (j, g) =>
        match nth_error l i, nth_error m j with
        | Some x, Some y => set_nth m j (f g x y)
        | _, _ => m
        end
    | _, _ => m
    end.
  Lemma step_length m n : List.length (step m n) = List.length m.
  Proof.
    unfold step. destruct (member n from) as [[i f]|]; [|reflexivity]. destruct (member n gs) as [[j g]|]; [|reflexivity].
    destruct (nth_error l i); [|reflexivity]. destruct (nth_error m j); [|reflexivity]. apply set_nth_length.
  Qed.
  Lemma fold_length ns : forall m, List.length (fold_left step ns m) = List.length m.
  Proof. induction ns as [|n ns IH]; intros m; cbn [fold_left]; [reflexivity|]. now rewrite IH, step_length. Qed.
  Lemma step_other m n j k g : NoDup (map fst gs) -> nth_error gs j = Some (k, g) -> k <> n -> nth_error (step m n) j = nth_error m j.
  Proof.
    intros N H Hk. unfold step. destruct (member n from) as [[i f]|]; [|reflexivity]. destruct (member n gs) as [[j' g']|] eqn:M; [|reflexivity].
    destruct (nth_error l i); [|reflexivity]. destruct (nth_error m j'); [|reflexivity]. apply set_nth_other. intros ->. apply member_nth in M. congruence.
  Qed.
  Lemma fold_other ns : forall m j k g, NoDup (map fst gs) -> nth_error gs j = Some (k, g) -> ~ In k ns -> nth_error (fold_left step ns m) j = nth_error m j.
  Proof.
    induction ns as [|n ns IH]; intros m j k g N H Hk; cbn [fold_left]; [reflexivity|]. cbn [In] in Hk.
    rewrite (IH _ _ _ _ N H) by tauto. apply (step_other _ _ _ _ _ N H). intros ->. tauto.
  Qed.
  Lemma fold_absent ns : forall m j k g, NoDup (map fst gs) -> nth_error gs j = Some (k, g) -> member k from = None -> nth_error (fold_left step ns m) j = nth_error m j.
  Proof.
    induction ns as [|n ns IH]; intros m j k g N H Hk; cbn [fold_left]; [reflexivity|].
    rewrite (IH _ _ _ _ N H Hk). destruct (list_eq_dec Z.eq_dec k n) as [<-|Nk]; [|now apply (step_other _ _ _ _ _ N H)].
    unfold step. now rewrite Hk.
  Qed.
  Lemma fold_there ns : forall m j k g i f x y, NoDup (map fst gs) -> NoDup ns -> In k ns -> nth_error gs j = Some (k, g) ->
    member k from = Some (i, f) -> nth_error l i = Some x -> nth_error m j = Some y -> nth_error (fold_left step ns m) j = Some (f g x y).
  Proof.
    induction ns as [|n ns IH]; intros m j k g i f x y N Nn Hk H Mf Hx Hy; [destruct Hk|]. inversion_clear Nn as [|? ? Nk Nr]. cbn [fold_left].
    destruct (list_eq_dec Z.eq_dec n k) as [->|Dn].
    - rewrite (fold_other _ _ _ _ _ N H Nk). unfold step. rewrite Mf, (nth_member _ _ _ _ N H), Hx, Hy. eapply set_nth_same, Hy.
    - destruct Hk as [->|Hk]; [congruence|]. eapply IH; eauto. rewrite (step_other _ _ _ _ _ N H); congruence.
  Qed.
End Loop.

(** ** What the conversion does, by kind of type *)
Fixpoint convert_all (c : chooser) (a b : jty) (l m : list val) {struct l} : list val :=
  match l, m with
  | [], _ => []
  | x :: l', [] => convert c a b x (jdefault b) :: convert_all c a b l' []
  | x :: l', y :: m' => convert c a b x y :: convert_all c a b l' m'
  end.
Lemma convert_vec c a b l m : convert c (JVec a) (JVec b) (VList l) (VList m) = VList (convert_all c a b l m).
Proof. cbn [convert]. f_equal. revert m. induction l as [|x l IH]; intros m; [reflexivity|]. cbn [convert_all]. destruct m as [|y m]; rewrite <- IH; reflexivity. Qed.
Lemma convert_struct_step c n fs k gs l m : JStruct n fs <> JStruct k gs ->
  convert c (JStruct n fs) (JStruct k gs) (VList l) (VList m) =
  VList (fold_left (step (map (fun f => (fst f, convert c (snd f))) fs) gs l) (choose c (map fst fs) (map fst gs)) m).
Proof. intros H. apply same_type_neq in H. cbn [convert]. rewrite H. reflexivity. Qed.

Lemma member_two {A B} n (fs : list (bytes * A)) (gs : list (bytes * B)) c : In n (map fst fs) -> In n (map fst gs) -> In n (choose c (map fst fs) (map fst gs)).
Proof. now destruct c. Qed.
Lemma convert_struct c n fs k gs l m :
  JStruct n fs <> JStruct k gs -> NoDup (map fst fs) -> NoDup (map fst gs) -> List.length l = List.length fs -> List.length m = List.length gs ->
  exists r, convert c (JStruct n fs) (JStruct k gs) (VList l) (VList m) = VList r /\ List.length r = List.length gs /\
    (forall i j name f g x y, nth_error fs i = Some (name, f) -> nth_error l i = Some x -> nth_error gs j = Some (name, g) -> nth_error m j = Some y ->
       nth_error r j = Some (convert c f g x y)) /\
    (forall j name g, nth_error gs j = Some (name, g) -> ~ In name (map fst fs) -> nth_error r j = nth_error m j).
Proof.
  intros Hd Nf Ng Ll Lm. rewrite (convert_struct_step _ _ _ _ _ _ _ Hd). eexists. split; [reflexivity|]. split; [|split].
  - rewrite fold_length. exact Lm.
  - intros i j name f g x y Hf Hx Hg Hy.
    assert (If : In name (map fst fs)) by (apply nth_error_In in Hf; change name with (fst (name, f)); now apply in_map).
    assert (Ig : In name (map fst gs)) by (apply nth_error_In in Hg; change name with (fst (name, g)); now apply in_map).
    apply (fold_there _ _ _ _ m j name g i (convert c f) x y Ng); auto.
    + now destruct c.
    + now apply member_two.
    + rewrite (member_map (convert c)), (nth_member _ _ _ _ Nf Hf). reflexivity.
  - intros j name g Hg Hn. eapply fold_absent; eauto. rewrite (member_map (convert c)). apply member_None in Hn. now rewrite Hn.
Qed.

(** ** Values *)
Lemma forallb2_nth {A} (fs : list (A -> bool)) l : forallb2 fs l = true <->
  (List.length fs = List.length l /\ forall i f x, nth_error fs i = Some f -> nth_error l i = Some x -> f x = true).
Proof.
  revert l. induction fs as [|f fs IH]; intros [|x l]; cbn [forallb2 List.length].
  - split; [intros _; split; [reflexivity|intros [|i] ? ? X; discriminate X]|reflexivity].
  - split; [discriminate|intros [X _]; discriminate X].
  - split; [discriminate|intros [X _]; discriminate X].
  - rewrite andb_true_iff, IH. split.
    + intros (Hf & L & H). split; [lia|]. intros [|i] g y Eg Ey; cbn [nth_error] in Eg, Ey; [congruence|]. eapply H; eauto.
    + intros (L & H). repeat split; [exact (H O f x eq_refl eq_refl)|lia|]. intros i g y Eg Ey. exact (H (S i) g y Eg Ey).
Qed.
Lemma value_vec t v : value_of (JVec t) v <-> exists l, v = VList l /\ forall x, In x l -> value_of t x.
Proof.
  unfold value_of. cbn [jwf jwf_with]. split.
  - destruct v; try discriminate. intros H. exists l. split; [reflexivity|]. now apply forallb_forall.
  - intros (l & -> & H). now apply forallb_forall.
Qed.
Lemma value_opt t v : value_of (JOpt t) v <-> v = VOpt None \/ exists x, v = VOpt (Some x) /\ value_of t x.
Proof.
  unfold value_of. cbn [jwf jwf_with]. split.
  - destruct v as [| | | | |[x|]|]; try discriminate; [right; eauto|now left].
  - intros [->|(x & -> & H)]; [reflexivity|exact H].
Qed.
Lemma value_variant ts v : value_of (JVariant ts) v <-> exists i t x, v = VVar i x /\ nthz ts i = Some t /\ value_of t x.
Proof.
  unfold value_of. cbn [jwf jwf_with]. split.
  - destruct v as [| | | | | |i x]; try discriminate. rewrite (nthz_map (jwf_with _)). destruct (nthz ts i) as [t|] eqn:N; [|discriminate]. intros H. exists i, t, x. auto.
  - intros (i & t & x & -> & N & H). rewrite (nthz_map (jwf_with _)), N. exact H.
Qed.
Lemma value_struct n fs v : value_of (JStruct n fs) v <-> exists l, v = VList l /\ List.length l = List.length fs /\
  forall i f x, nth_error fs i = Some f -> nth_error l i = Some x -> value_of (snd f) x.
Proof.
  unfold value_of. cbn [jwf jwf_with]. split.
  - destruct v as [| | | |l| |]; try discriminate. intros H. apply forallb2_nth in H as [L H]. rewrite map_length in L. exists l. split; [reflexivity|]. split; [auto|].
    intros i f x Hf Hx. eapply H; eauto. rewrite nth_error_map, Hf. reflexivity.
  - intros (l & -> & L & H). apply forallb2_nth. rewrite map_length. split; [auto|]. intros i f x Hf Hx. rewrite nth_error_map in Hf.
    destruct (nth_error fs i) as [g|] eqn:Hg; [|discriminate]. injection Hf as <-. eapply H; eauto.
Qed.
Lemma default_value t : plain t -> value_of t (jdefault t).
Proof.
  induction t as [b|t IH|t IH|ts IH|nm fs IH|a b IHa IHb|t IH| |t IH|names|k] using jty_ind'; intros P.
  - destruct b; reflexivity.
  - apply value_vec. exists []. split; [reflexivity|]. intros x [].
  - apply value_opt. now left.
  - inversion_clear P as [| | |? Ne Hp| | | | | |]. destruct ts as [|t ts]; [congruence|]. apply value_variant. exists 0, t, (jdefault t).
    split; [reflexivity|]. split; [reflexivity|]. inversion_clear IH. auto using in_eq.
  - inversion_clear P as [| | | |? ? Nd Hp| | | | |]. apply value_struct. unfold jdefault. cbn [erase default_of]. rewrite map_map. eexists. split; [reflexivity|]. rewrite map_length. split; [reflexivity|].
    intros i f x Hf Hx. rewrite nth_error_map, Hf in Hx. injection Hx as <-. rewrite Forall_forall in IH. apply IH; [|apply Hp]; eapply nth_error_In; eauto.
  - inversion_clear P. unfold value_of, jdefault. cbn [erase default_of map jwf jwf_with]. rewrite andb_true_iff. split; [now apply IHa|now apply IHb].
  - inversion_clear P. unfold value_of, jdefault. cbn [erase default_of jwf jwf_with]. now apply IH.
  - reflexivity.
  - reflexivity.
  - reflexivity.
  - inversion P.
Qed.
(** Nothing is converted to a variant. *)
Lemma no_variant D c us : forall t v, compiles D c t (JVariant us) = true -> value_of t v -> False.
Proof.
  induction t as [b|t IH|t IH|ts IH|nm fs IH|a b IHa IHb|t IH| |t IH|names|k] using jty_ind'; intros v C V; cbn [compiles same_type] in C; try discriminate C.
  - destruct b; discriminate C.
  - apply value_variant in V as (i & t & x & -> & N & V). apply nthz_In in N. rewrite forallb_forall in C. rewrite Forall_forall in IH. exact (IH t N x (C t N) V).
Qed.

(** ** What compiles *)
Lemma compiles_struct D c n fs k gs : NoDup (map fst fs) -> NoDup (map fst gs) ->
  compiles D c (JStruct n fs) (JStruct k gs) = true <->
  (JStruct n fs = JStruct k gs \/
   (conversion_kind_t D (JStruct n fs) (JStruct k gs) <> NoConversion /\
    (forall name f g, In (name, f) fs -> In (name, g) gs -> compiles D c f g = true) /\
    (conversion_kind_t D (JStruct n fs) (JStruct k gs) = Narrowing \/
     (forall name, In name (choose c (map fst fs) (map fst gs)) -> In name (map fst fs) /\ In name (map fst gs))))).
Proof.
  intros Nf Ng. cbn [compiles]. rewrite orb_true_iff, same_type_spec. apply or_iff_compat_l.
  set (K := conversion_kind_t D (JStruct n fs) (JStruct k gs)).
  set (A := forallb _ _).
  assert (HA : A = true <-> forall name, In name (choose c (map fst fs) (map fst gs)) ->
     match member name fs, member name gs with Some (_, f), Some (_, g) => compiles D c f g = true | _, _ => may_skip K = true end).
  { unfold A. rewrite forallb_forall. split; intros H name I; specialize (H name I); cbv beta in *; rewrite (member_map (compiles D c)) in *;
      destruct (member name fs) as [[i f]|]; auto; destruct (member name gs) as [[j g]|]; auto. }
  assert (Hm : forall name, In name (choose c (map fst fs) (map fst gs)) -> In name (map fst fs) \/ In name (map fst gs)) by (destruct c; cbn [choose]; auto).
  transitivity (K <> NoConversion /\ A = true); [destruct K; split; try (intros [X _]; congruence); try discriminate; try (intros X; split; [discriminate|exact X]); now intros [_ X]|].
  rewrite HA. split; [intros [Kn H]|intros [Kn Hx]]; (split; [exact Kn|]).
  - split.
    + intros name f g If Ig. destruct (In_member _ _ _ Nf If) as [i Mi]. destruct (In_member _ _ _ Ng Ig) as [j Mj].
      assert (I : In name (choose c (map fst fs) (map fst gs))) by (apply member_two; [change name with (fst (name, f))|change name with (fst (name, g))]; now apply in_map).
      specialize (H name I). now rewrite Mi, Mj in H.
    + destruct (may_skip K) eqn:S.
      * left. destruct K eqn:EK; try discriminate S; [congruence|reflexivity].
      * right. intros name I. specialize (H name I). destruct (member name fs) as [[i f]|] eqn:Mf; [|discriminate]. destruct (member name gs) as [[j g]|] eqn:Mg; [|discriminate].
        apply member_nth in Mf, Mg. apply nth_error_In in Mf, Mg. split; [change name with (fst (name, f))|change name with (fst (name, g))]; now apply in_map.
  - destruct Hx as [Hc Hs]. intros name I. destruct (member name fs) as [[i f]|] eqn:Mf; destruct (member name gs) as [[j g]|] eqn:Mg.
    + apply member_nth in Mf, Mg. apply nth_error_In in Mf, Mg. eauto.
    + destruct Hs as [->|Hs]; [reflexivity|]. apply member_None in Mg. exfalso. apply Mg. now apply Hs.
    + destruct Hs as [->|Hs]; [reflexivity|]. apply member_None in Mf. exfalso. apply Mf. now apply Hs.
    + destruct Hs as [->|Hs]; [reflexivity|]. apply member_None in Mf. exfalso. apply Mf. now apply Hs.
Qed.
Lemma compiles_member D c n fs k gs name f g : NoDup (map fst fs) -> NoDup (map fst gs) -> JStruct n fs <> JStruct k gs ->
  compiles D c (JStruct n fs) (JStruct k gs) = true -> In (name, f) fs -> In (name, g) gs -> compiles D c f g = true.
Proof. intros Nf Ng Hd C. apply (compiles_struct _ _ _ _ _ _ Nf Ng) in C as [C|(_ & H & _)]; [contradiction|]. eauto. Qed.
Lemma compiles_vec D c a b : compiles D c (JVec a) (JVec b) = true -> compiles D c a b = true.
Proof. cbn [compiles]. now intros H%andb_true_iff. Qed.

Lemma jty_dec (t u : jty) : t = u \/ t <> u.
Proof. destruct (same_type t u) eqn:E; [left; now apply same_type_spec|right; now apply same_type_neq]. Qed.
Lemma nth_ext {A} (l m : list A) : List.length l = List.length m -> (forall i x, nth_error m i = Some x -> nth_error l i = Some x) -> l = m.
Proof.
  revert m. induction l as [|x l IH]; intros [|y m] L H; cbn [List.length] in L; try discriminate L; [reflexivity|].
  f_equal; [pose proof (H O y eq_refl) as X; cbn in X; congruence|]. apply IH; [lia|]. intros i z Hz. exact (H (S i) z Hz).
Qed.
Lemma nth_some {A B} (l : list A) (m : list B) i x : List.length l = List.length m -> nth_error l i = Some x -> exists y, nth_error m i = Some y.
Proof. intros L H. destruct (nth_error m i) as [y|] eqn:E; [eauto|]. apply nth_error_None in E. assert (i < List.length l)%nat by (apply nth_error_Some; congruence). lia. Qed.

(** Types which are not converted but copied. *)
Lemma convert_same D c : forall t x y, compiles D c t t = true -> value_of t x -> value_of t y -> plain t -> convert c t t x y = x.
Proof.
  induction t as [b|t IH|t IH|ts IH|nm fs IH|a b IHa IHb|t IH| |t IH|names|k] using jty_ind'; intros x y C Vx Vy P; try reflexivity.
  - destruct b; reflexivity.
  - apply value_vec in Vx as (l & -> & Vl). apply value_vec in Vy as (m & -> & Vm). rewrite convert_vec. f_equal. apply compiles_vec in C. inversion_clear P as [|? Pt| | | | | | | |].
    revert m Vm. induction l as [|x l IHl]; intros m Vm; [reflexivity|]. cbn [convert_all]. destruct m as [|y m].
    + f_equal; [apply IH; auto using in_eq, default_value|]. apply IHl; [intros z Hz; apply Vl; now right|intros z []].
    + f_equal; [apply IH; auto using in_eq|]. apply IHl; intros z Hz; [apply Vl|apply Vm]; now right.
  - apply value_opt in Vx as [->|(z & -> & Vz)]; [reflexivity|]. cbn [convert]. inversion_clear P. do 2 f_equal. apply IH; auto using default_value.
  - exfalso. eapply no_variant; eauto.
  - cbn [convert]. now rewrite same_type_refl.
Qed.

Inductive case (D : declarations) (c : chooser) : jty -> jty -> Prop :=
| C_variant ts u : (forall t, In t ts -> compiles D c t u = true) -> case D c (JVariant ts) u
| C_vec a b : compiles D c a b = true -> case D c (JVec a) (JVec b)
| C_opt a b : compiles D c a b = true -> case D c (JOpt a) (JOpt b)
| C_view : case D c JView (JVec (JScalar B_int8))
| C_varuint : case D c (JScalar B_varuint32) (JScalar B_uint32)
| C_struct n fs k gs : JStruct n fs <> JStruct k gs -> case D c (JStruct n fs) (JStruct k gs)
| C_copy t : (forall x y, convert c t t x y = x) -> case D c t t.
Lemma compiles_case D c t u : compiles D c t u = true -> case D c t u.
Proof.
  intros C. destruct t as [b|t|t|ts|n fs|a b|t| |t|names|i].
  4: apply C_variant; cbn [compiles] in C; now apply forallb_forall.
  4: { destruct u as [b'|t'|t'|ts'|k gs|a' b'|t'| |t'|names'|i']; try discriminate C. destruct (jty_dec (JStruct n fs) (JStruct k gs)) as [E|E]; [|now apply C_struct].
       rewrite <- E. apply C_copy. intros x y. cbn [convert]. now rewrite same_type_refl. }
  - assert (H : same_type (JScalar b) u = true \/ (b = B_varuint32 /\ u = JScalar B_uint32)).
    { cbn [compiles] in C. destruct b; auto. destruct u as [b'| | | | | | | | | |]; auto. destruct b'; auto. }
    destruct H as [H|[-> ->]]; [|constructor]. apply same_type_spec in H. subst. apply C_copy. now destruct b.
  - destruct u as [b'|t'|t'|ts'|k gs|a' b'|t'| |t'|names'|i']; try discriminate C. apply C_vec. now apply compiles_vec.
  - destruct u as [b'|t'|t'|ts'|k gs|a' b'|t'| |t'|names'|i']; try discriminate C. apply C_opt. exact C.
  - apply same_type_spec in C. subst. now apply C_copy.
  - apply same_type_spec in C. subst. now apply C_copy.
  - destruct u as [b'|t'|t'|ts'|k gs|a' b'|t'| |t'|names'|i']; try discriminate C; [|now apply C_copy].
    destruct t' as [b'| | | | | | | | | |]; try discriminate C. destruct b'; try discriminate C. constructor.
  - apply same_type_spec in C. subst. now apply C_copy.
  - apply same_type_spec in C. subst. now apply C_copy.
  - apply same_type_spec in C. subst. now apply C_copy.
Qed.

Lemma convert_value D c : forall t u x y, compiles D c t u = true -> plain t -> plain u -> value_of t x -> value_of u y -> value_of u (convert c t u x y).
Proof.
  induction t as [b|t IH|t IH|ts IH|nm fs IH|a b IHa IHb|t IH| |t IH|names|i] using jty_ind'; intros u x y C Pt Pu Vx Vy;
    pose proof (compiles_case _ _ _ _ C) as Cs; inversion Cs; subst; try (match goal with H : forall x y, convert _ _ _ x y = x |- _ => now rewrite H end).
  - exact Vx.
  - apply value_vec in Vx as (l & -> & Vl). apply value_vec in Vy as (m & -> & Vm). rewrite convert_vec. apply value_vec. eexists. split; [reflexivity|]. apply compiles_vec in C.
    inversion_clear Pt as [|? Pt'| | | | | | | |]. inversion_clear Pu as [|? Pu'| | | | | | | |].
    revert m Vm. induction l as [|x l IHl]; intros m Vm; [intros z []|]. cbn [convert_all]. destruct m as [|y m]; intros z [<-|Hz].
    + apply IH; auto using in_eq, default_value.
    + eapply IHl; [intros; apply Vl; now right| |exact Hz]. intros w [].
    + apply IH; auto using in_eq.
    + eapply IHl; [intros; apply Vl; now right| |exact Hz]. intros w Hw. apply Vm. now right.
  - apply value_opt in Vx as [->|(z & -> & Vz)]; cbn [convert]; apply value_opt; [now left|]. right. eexists. split; [reflexivity|].
    inversion_clear Pt. inversion_clear Pu. apply IH; auto using default_value.
  - apply value_variant in Vx as (i & t & z & -> & N & V). cbn [convert compiles] in *. rewrite (nthz_map (convert c)), N. cbn [option_map].
    apply nthz_In in N. rewrite Forall_forall in IH. inversion_clear Pt. apply IH; auto.
  - match goal with H : JStruct nm fs <> JStruct ?k ?gs |- _ => rename H into Hd; rename k into nm'; rename gs into fs' end. inversion_clear Pt as [| | | |? ? Nf Pf| | | | |]. inversion_clear Pu as [| | | |? ? Ng Pg| | | | |].
    apply value_struct in Vx as (l & -> & Ll & Vl). pose proof Vy as Vy'. apply value_struct in Vy as (m & -> & Lm & Vm).
    destruct (convert_struct c nm fs nm' fs' l m Hd Nf Ng Ll Lm) as (r & -> & Lr & Hin & Hout). apply value_struct. exists r. split; [reflexivity|]. split; [exact Lr|].
    intros j [name g] z Hg Hz. cbn [snd]. destruct (nth_some fs' m j _ ltac:(lia) Hg) as [y Hy].
    destruct (member name fs) as [[i f]|] eqn:Mf.
    + apply member_nth in Mf. destruct (nth_some fs l i _ ltac:(lia) Mf) as [x Hx].
      rewrite (Hin _ _ _ _ _ _ _ Mf Hx Hg Hy) in Hz. injection Hz as <-. rewrite Forall_forall in IH.
      apply (IH (name, f)); [eapply nth_error_In; eassumption| | | | |].
      * apply (compiles_member D c nm fs nm' fs' name f g Nf Ng Hd C); eapply nth_error_In; eassumption.
      * apply (Pf (name, f)). eauto using nth_error_In.
      * apply (Pg (name, g)). eauto using nth_error_In.
      * apply (Vl _ _ _ Mf Hx).
      * apply (Vm _ _ _ Hg Hy).
    + apply member_None in Mf. rewrite (Hout _ _ _ Hg Mf) in Hz. apply (Vm _ _ _ Hg Hz).
  - unfold value_of in Vx. cbn [jwf jwf_with] in Vx. destruct x as [| | |s| | |]; try discriminate Vx. cbn [convert]. apply value_vec. eexists. split; [reflexivity|].
    intros z Hz. apply in_map_iff in Hz as (w & <- & Hw). apply bytes_okb_spec in Vx. unfold bytes_ok in Vx. rewrite Forall_forall in Vx. specialize (Vx w Hw).
    unfold value_of. change (int_ok true 1 (to_signed 8 w) = true). unfold int_ok, fits_s, to_signed, is_byte in *. change (Z.of_nat 1) with 1. change (2 ^ (8 * 1 - 1)) with 128. change (2 ^ (8 - 1)) with 128. change (2 ^ 8) with 256. destruct (Z.ltb_spec w 128); lia.
Qed.

(** ** Which of the two structs is chosen does not matter. *)
Lemma convert_chooser : forall t u x y, plain t -> plain u -> value_of t x -> value_of u y -> convert First t u x y = convert Second t u x y.
Proof.
  induction t as [b|t IH|t IH|ts IH|nm fs IH|a b IHa IHb|t IH| |t IH|names|i] using jty_ind'; intros u x y Pt Pu Vx Vy; try reflexivity.
  - destruct u as [b'|t'|t'|ts'|k gs|a' b'|t'| |t'|names'|i']; try reflexivity.
    apply value_vec in Vx as (l & -> & Vl). apply value_vec in Vy as (m & -> & Vm). rewrite !convert_vec. f_equal.
    inversion_clear Pt as [|? Pt'| | | | | | | |]. inversion_clear Pu as [|? Pu'| | | | | | | |].
    revert m Vm. induction l as [|x l IHl]; intros m Vm; [reflexivity|]. cbn [convert_all]. destruct m as [|y m].
    + f_equal; [apply IH; auto using in_eq, default_value|]. apply IHl; [intros z Hz; apply Vl; now right|intros z []].
    + f_equal; [apply IH; auto using in_eq|]. apply IHl; intros z Hz; [apply Vl|apply Vm]; now right.
  - destruct u as [b'|t'|t'|ts'|k gs|a' b'|t'| |t'|names'|i']; try reflexivity.
    apply value_opt in Vx as [->|(z & -> & Vz)]; [reflexivity|]. cbn [convert]. inversion_clear Pt. inversion_clear Pu. do 2 f_equal. apply IH; auto using default_value.
  - apply value_variant in Vx as (i & t & z & -> & N & V). cbn [convert]. rewrite (nthz_map (convert First)), (nthz_map (convert Second)), N. cbn [option_map].
    apply nthz_In in N. rewrite Forall_forall in IH. inversion_clear Pt. apply IH; auto.
  - destruct u as [b'|t'|t'|ts'|k gs|a' b'|t'| |t'|names'|i']; try reflexivity.
    destruct (jty_dec (JStruct nm fs) (JStruct k gs)) as [Ed|Hd]; [cbn [convert]; now rewrite Ed, !same_type_refl|].
    inversion_clear Pt as [| | | |? ? Nf Pf| | | | |]. inversion_clear Pu as [| | | |? ? Ng Pg| | | | |].
    apply value_struct in Vx as (l & -> & Ll & Vl). apply value_struct in Vy as (m & -> & Lm & Vm).
    destruct (convert_struct First nm fs k gs l m Hd Nf Ng Ll Lm) as (r & -> & Lr & Hin & Hout).
    destruct (convert_struct Second nm fs k gs l m Hd Nf Ng Ll Lm) as (r' & -> & Lr' & Hin' & Hout').
    f_equal. apply nth_ext; [congruence|]. intros j z Hz. destruct (nth_some r' gs j _ ltac:(lia) Hz) as [[name g] Hg]. destruct (nth_some r' m j _ ltac:(lia) Hz) as [y Hy].
    destruct (member name fs) as [[i f]|] eqn:Mf.
    + apply member_nth in Mf. destruct (nth_some fs l i _ ltac:(lia) Mf) as [x Hx].
      rewrite (Hin' _ _ _ _ _ _ _ Mf Hx Hg Hy) in Hz. rewrite (Hin _ _ _ _ _ _ _ Mf Hx Hg Hy), <- Hz. f_equal. rewrite Forall_forall in IH.
      apply (IH (name, f)); [eapply nth_error_In; eassumption| | | |].
      * apply (Pf (name, f)). eapply nth_error_In; eassumption.
      * apply (Pg (name, g)). eapply nth_error_In; eassumption.
      * apply (Vl _ _ _ Mf Hx).
      * apply (Vm _ _ _ Hg Hy).
    + apply member_None in Mf. rewrite (Hout' _ _ _ Hg Mf) in Hz. rewrite (Hout _ _ _ Hg Mf). exact Hz.
Qed.

(** ** The old value of the destination *)
Lemma convert_fills D c : forall t u, fills t u -> compiles D c t u = true -> plain t -> plain u ->
  forall x y y', value_of t x -> value_of u y -> value_of u y' -> convert c t u x y = convert c t u x y'.
Proof.
  induction t as [b|t IH|t IH|ts IH|nm fs IH|a b IHa IHb|t IH| |t IH|names|i] using jty_ind'; intros u F C Pt Pu x y y' Vx Vy Vy';
    inversion F; subst; try (rewrite !(convert_same D c) by assumption; reflexivity); try (destruct b; reflexivity); try reflexivity.
  - apply value_vec in Vx as (l & -> & Vl). apply value_vec in Vy as (m & -> & Vm). apply value_vec in Vy' as (m' & -> & Vm'). rewrite !convert_vec. f_equal. apply compiles_vec in C.
    inversion_clear Pt as [|? Pt'| | | | | | | |]. inversion_clear Pu as [|? Pu'| | | | | | | |].
    assert (IHv : forall x y y', value_of t x -> value_of u0 y -> value_of u0 y' -> convert c t u0 x y = convert c t u0 x y') by (apply IH; auto).
    pose proof (default_value _ Pu') as Vd. clear - IHv Vl Vm Vm' Vd.
    revert m m' Vm Vm'. induction l as [|x l IHl]; intros m m' Vm Vm'; [reflexivity|].
    assert (Vl' : forall z, In z l -> value_of t z) by (intros; apply Vl; now right). specialize (IHl Vl').
    assert (Vn : forall z, In z [] -> value_of u0 z) by (intros z []).
    assert (tl : forall z w, (forall v, In v (z :: w) -> value_of u0 v) -> forall v, In v w -> value_of u0 v) by (intros z w H v Hv; apply H; now right).
    cbn [convert_all]. destruct m as [|y m]; destruct m' as [|y' m']; (apply (f_equal2 (@cons val)); [apply IHv; auto using in_eq|apply IHl; eauto]).
  - apply value_opt in Vx as [->|(v & -> & _)]; reflexivity.
  - apply value_variant in Vx as (i & t & z & -> & N & V). cbn [convert compiles] in *. rewrite (nthz_map (convert c)), N. cbn [option_map].
    apply nthz_In in N. rewrite forallb_forall in C. rewrite Forall_forall in IH. inversion_clear Pt. apply IH; auto.
  - rename m into k. destruct (jty_dec (JStruct nm fs) (JStruct k gs)) as [Ed|Hd]; [cbn [convert]; now rewrite Ed, !same_type_refl|].
    inversion_clear Pt as [| | | |? ? Nf Pf| | | | |]. inversion_clear Pu as [| | | |? ? Ng Pg| | | | |].
    apply value_struct in Vx as (l & -> & Ll & Vl). apply value_struct in Vy as (m & -> & Lm & Vm). apply value_struct in Vy' as (m' & -> & Lm' & Vm').
    destruct (convert_struct c nm fs k gs l m Hd Nf Ng Ll Lm) as (r & -> & Lr & Hin & _).
    destruct (convert_struct c nm fs k gs l m' Hd Nf Ng Ll Lm') as (r' & -> & Lr' & Hin' & _).
    f_equal. apply nth_ext; [congruence|]. intros j z Hz. destruct (nth_some r' gs j _ ltac:(lia) Hz) as [[name g] Hg].
    destruct (nth_some r' m j _ ltac:(lia) Hz) as [y Hy]. destruct (nth_some r' m' j _ ltac:(lia) Hz) as [y' Hy'].
    match goal with H : forall k g, In (k, g) gs -> _ |- _ => destruct (H name g ltac:(eapply nth_error_In; eassumption)) as (f & If & Ff) end.
    destruct (In_member _ _ _ Nf If) as [i Mf]. apply member_nth in Mf. destruct (nth_some fs l i _ ltac:(lia) Mf) as [x Hx].
    rewrite (Hin' _ _ _ _ _ _ _ Mf Hx Hg Hy') in Hz. rewrite (Hin _ _ _ _ _ _ _ Mf Hx Hg Hy), <- Hz. f_equal. rewrite Forall_forall in IH.
    apply (IH (name, f)); [exact If|exact Ff| | | | | |].
    + apply (compiles_member D c nm fs k gs name f g Nf Ng Hd C If). eapply nth_error_In; eassumption.
    + apply (Pf (name, f)); eapply nth_error_In; eassumption.
    + apply (Pg (name, g)); eapply nth_error_In; eassumption.
    + apply (Vl _ _ _ Mf Hx).
    + apply (Vm _ _ _ Hg Hy).
    + apply (Vm' _ _ _ Hg Hy').
  - destruct x; try discriminate Vx. reflexivity.
Qed.

(** ** To a wider type and back *)
Lemma convert_there_and_back D D' c c' : forall t u, wider t u -> compiles D c t u = true -> compiles D' c' u t = true -> plain t -> plain u ->
  forall x y z, value_of t x -> value_of u y -> value_of t z -> convert c' u t (convert c t u x y) z = x.
Proof.
  assert (Same : forall t, compiles D c t t = true -> compiles D' c' t t = true -> plain t -> forall x y z, value_of t x -> value_of t y -> value_of t z -> convert c' t t (convert c t t x y) z = x).
  { intros t C C' P x y z Vx Vy Vz. rewrite (convert_same D c) by assumption. now apply (convert_same D' c'). }
  induction t as [b|t IH|t IH|ts IH|nm fs IH|a b IHa IHb|t IH| |t IH|names|i] using jty_ind'; intros u W C C' Pt Pu x y z Vx Vy Vz;
    (inversion W; subst; [now apply Same|..]).
  - apply value_vec in Vx as (l & -> & Vl). apply value_vec in Vy as (m & -> & Vm). apply value_vec in Vz as (q & -> & Vq). rewrite !convert_vec. f_equal. apply compiles_vec in C, C'.
    inversion_clear Pt as [|? Pt'| | | | | | | |]. inversion_clear Pu as [|? Pu'| | | | | | | |].
    assert (IHv : forall x y z, value_of t x -> value_of u0 y -> value_of t z -> convert c' u0 t (convert c t u0 x y) z = x) by (apply IH; auto).
    pose proof (default_value _ Pu') as Vd. pose proof (default_value _ Pt') as Vd'. clear - IHv Vl Vm Vq Vd Vd'.
    revert m q Vm Vq. induction l as [|x l IHl]; intros m q Vm Vq; [reflexivity|].
    assert (Vl' : forall z, In z l -> value_of t z) by (intros; apply Vl; now right). specialize (IHl Vl').
    assert (Vn : forall s z, In z [] -> value_of s z) by (intros s z []).
    assert (tl : forall s z w, (forall v, In v (z :: w) -> value_of s v) -> forall v, In v w -> value_of s v) by (intros s z w H v Hv; apply H; now right).
    destruct m as [|y m]; destruct q as [|z q]; cbn [convert_all]; (apply (f_equal2 (@cons val)); [apply IHv; auto using in_eq|apply IHl; eauto]).
  - inversion_clear Pt. inversion_clear Pu. apply value_opt in Vx as [->|(v & -> & Vv)]; [reflexivity|]. cbn [convert]. do 2 f_equal. apply IH; auto using default_value.
  - rename m into k. destruct (jty_dec (JStruct nm fs) (JStruct k gs)) as [Ed|Hd]; [rewrite <- Ed in *; now apply Same|].
    pose proof Pt as Pt'. pose proof Pu as Pu'. inversion_clear Pt as [| | | |? ? Nf Pf| | | | |]. inversion_clear Pu as [| | | |? ? Ng Pg| | | | |].
    pose proof Vy as Vy'. apply value_struct in Vx as (l & -> & Ll & Vl). apply value_struct in Vy as (m & -> & Lm & Vm). apply value_struct in Vz as (q & -> & Lq & Vq).
    destruct (convert_struct c nm fs k gs l m Hd Nf Ng Ll Lm) as (r & -> & Lr & Hin & _).
    destruct (convert_struct c' k gs nm fs r q (not_eq_sym Hd) Ng Nf Lr Lq) as (r' & -> & Lr' & Hin' & _).
    f_equal. apply nth_ext; [congruence|]. intros i x Hx. destruct (nth_some l fs i _ ltac:(lia) Hx) as [[name f] Hf].
    match goal with H : forall k f, In (k, f) fs -> _ |- _ => destruct (H name f ltac:(eapply nth_error_In; eassumption)) as (g & Ig & Wg) end.
    destruct (In_member _ _ _ Ng Ig) as [j Mg]. apply member_nth in Mg. destruct (nth_some gs m j _ ltac:(lia) Mg) as [y Hy]. destruct (nth_some fs q i _ ltac:(lia) Hf) as [z Hz].
    rewrite (Hin' _ _ _ _ _ _ _ Mg (Hin _ _ _ _ _ _ _ Hf Hx Mg Hy) Hf Hz). f_equal. rewrite Forall_forall in IH.
    assert (If : In (name, f) fs) by (eapply nth_error_In; eassumption).
    apply (IH (name, f)); [exact If|exact Wg| | | | | | |].
    + apply (compiles_member D c nm fs k gs name f g Nf Ng Hd C If Ig).
    + apply (compiles_member D' c' k gs nm fs name g f Ng Nf (not_eq_sym Hd) C' Ig If).
    + apply (Pf (name, f) If).
    + apply (Pg (name, g) Ig).
    + apply (Vl _ _ _ Hf Hx).
    + apply (Vm _ _ _ Mg Hy).
    + apply (Vq _ _ _ Hf Hz).
Qed.
