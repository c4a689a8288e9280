(** * C58: reading JSON into an object which has been used, and objects after a failed reading *)
From Verif Require Import Base Stream TypedBin TypedSpec DecodeInto DecodeIntoSpec Prop_DecodeInto Asset Time Keys KeysFacts JsonInt Json JsonSpec JsonPrint Abi AbiScalar AbiScalarFacts AbiJsonText
  TypedJson TypedJsonSpec TypedJsonFacts TypedJsonRead TypedJsonText TypedJsonBack Prop_AbiBin Prop_AbiJson Prop_TypedJson JsonInto JsonIntoSpec JsonIntoScalar JsonIntoFacts.

(** The calls end as in C41, with the same value when they do not throw. *)
Theorem C58_outcome : forall E pf t old s,
  from_json E t old s =
  match from_json_into E pf t old s with
  | (v, Ok s') => Ok (v, s')
  | (_, Err e) => Err e
  | (_, Undef w) => Undef w
  end.
Proof. intros E pf t old s. symmetry. apply from_json_drop. Qed.
Print Assumptions C58_outcome.

Lemma object_shaped env : forall t v, object env (erase t) v -> shaped t v = true.
Proof.
  induction t as [b|t IH|t IH|tys IH|nm fs IH|a b IHa IHb|t IH| |t IH|names|k] using jty_ind'; intros v H; try reflexivity; cbn [erase] in H.
  - inversion H; subst. reflexivity.
  - inversion H as [| | | | | | | | | | | | | | | | | |? ? ? H'|]; subst. inversion H' as [| | | | | | | | | | | | | | | |? l F| | |]; subst. cbn [shaped]. clear H H'.
    revert l F. induction IH as [|f fs Hf _ IHf]; intros l F; inversion F; subst; [reflexivity|]. cbn [map forallb2]. rewrite Hf by assumption. now apply IHf.
  - inversion H; subst. cbn [shaped]. now apply IH.
Qed.

(** How a call ends does not depend on what the object held: not whether it throws, not what, nor where
    the stream is afterwards. *)
Theorem C58_same_outcome : forall E pf t a b s,
  object key_env (erase t) a -> object key_env (erase t) b ->
  snd (from_json_into E pf t a s) = snd (from_json_into E pf t b s).
Proof. intros E pf t a b s Ha Hb. apply into_same; eapply object_shaped; eauto. Qed.
Print Assumptions C58_same_outcome.

(** Whatever the text and however the call ends, what is left is an object of the type: numbers in range,
    alternatives of the right type, strings of bytes. *)
Theorem C58_objects : forall E pf t old text,
  float_lib_ok E -> parses_in_range pf -> unrecursive t = true -> instantiable (erase t) = true ->
  bytes_ok text -> short text -> object key_env (erase t) old ->
  object key_env (erase t) (fst (from_json_into E pf t old (open_json text))).
Proof.
  intros E pf t old text HE Hp U I Hb Hs Ob. apply into_object; auto. unfold open_json. destruct (tokenize text) as [ts e] eqn:T.
  cbn [toks]. now destruct (tokenize_tokens text ts e Hb Hs T).
Qed.
Print Assumptions C58_objects.

(** ** Vectors *)
(** A vector keeps its elements and gets those which an empty one would get, also when the call throws. *)
Theorem C58_vectors : forall E pf t l s, exists l',
  from_json_into E pf (JVec t) (VList []) s = (VList l', snd (from_json_into E pf (JVec t) (VList l) s)) /\
  from_json_into E pf (JVec t) (VList l) s = (VList (l ++ l'), snd (from_json_into E pf (JVec t) (VList l) s)).
Proof.
  intros E pf t l s. destruct (into_vec E pf t l s) as [H [l' Hl]]. exists l'. rewrite H, Hl. cbn [snd]. split; [|reflexivity].
  destruct (from_json_into E pf (JVec t) (VList []) s) as [v r]. cbn [fst snd] in *. now subst.
Qed.
Print Assumptions C58_vectors.

(** ** Structs *)
(** A member whose key does not come in the text keeps its value, however the call ends. *)
Theorem C58_members_kept : forall E pf name fs l s, exists l',
  fst (from_json_into E pf (JStruct name fs) (VList l) s) = VList l' /\ List.length l' = List.length l /\
  forall k n t, nth_error fs n = Some (k, t) -> ~ In (TkKey k) (toks s) -> nth_error l' n = nth_error l n.
Proof.
  intros E pf name fs l s. destruct (into_kept E pf name fs l s []) as (l' & H & L & _). exists l'. split; [exact H|]. split; [exact L|].
  intros k n t N K. destruct (into_kept E pf name fs l s k) as (l2 & H2 & _ & Q). assert (l2 = l') by congruence. subst. eauto.
Qed.
Print Assumptions C58_members_kept.
(** What a member becomes does not depend on the other members. *)
Theorem C58_members_apart : forall E pf name fs l1 l2 s n r1 r2,
  object key_env (erase (JStruct name fs)) (VList l1) -> object key_env (erase (JStruct name fs)) (VList l2) ->
  fst (from_json_into E pf (JStruct name fs) (VList l1) s) = VList r1 -> fst (from_json_into E pf (JStruct name fs) (VList l2) s) = VList r2 ->
  nth_error l1 n = nth_error l2 n -> nth_error r1 n = nth_error r2 n.
Proof.
  intros E pf name fs l l' s n r1 r2 H1 H2 R1 R2 Hn. apply object_shaped in H1, H2. cbn [from_json_into] in *.
  destruct (get_start_object s) as [s1|e|w]; cbn [keeping fst] in *; try congruence.
  cbn [shaped] in H1, H2. apply shaped_fields in H1 as [Lx Sx], H2 as [Ly Sy].
  destruct (members_rel (map (fun f => (fst f, from_json_into E pf (snd f))) fs)
    (fun m a b => (forall f, nth_error fs m = Some f -> shaped (snd f) a = true /\ shaped (snd f) b = true) /\ (m = n -> a = b))) with
    (fuel := fuel_of s1) (l := l) (l' := l') (s := s1) as [_ Q].
  - intros k i f a b s0 Fn [R Q]. apply first_field in Fn as (m & t & -> & Nf & ->). rewrite Nat2Z.id in *.
    destruct (R _ Nf) as [Ra Rb]. cbn [snd] in *. split; [now apply into_same|]. split.
    + intros g Hg. assert (g = (k, t)) by congruence. subst g. cbn [snd]. split; now apply into_shaped.
    + intros E0. now rewrite (Q E0).
  - intros m. destruct (nth_error l m) as [a|] eqn:A, (nth_error l' m) as [b|] eqn:B; auto.
    + split; [intros f Hf; split; [eapply Sx; eauto|eapply Sy; eauto]|]. intros ->. congruence.
    + apply nth_error_None in B. assert (X : nth_error l m <> None) by congruence. apply nth_error_Some in X. lia.
    + apply nth_error_None in A. assert (X : nth_error l' m <> None) by congruence. apply nth_error_Some in X. lia.
  - specialize (Q n). destruct (members_into _ _ l s1) as [x1 [y1|y1|y1]], (members_into _ _ l' s1) as [x2 [y2|y2|y2]]; cbn [closing fst] in *;
      (assert (x1 = r1) by congruence; assert (x2 = r2) by congruence; subst x1 x2; destruct (nth_error r1 n), (nth_error r2 n); [f_equal; now apply Q|destruct Q|destruct Q|reflexivity]).
Qed.
Print Assumptions C58_members_apart.

(** ** One step at a time
    The texts of an array or object, item by item: these laws say what is left wherever the exception comes from. *)
Lemma items_fuel f : progresses (fun s => drop (f s)) -> forall fuel fuel' l s, (left_of s < fuel)%nat -> (left_of s < fuel')%nat ->
  items_into f fuel l s = items_into f fuel' l s.
Proof.
  intros P. induction fuel as [|fuel IH]; intros [|fuel'] l s L L'; try lia. cbn [items_into].
  destruct (peek_token s) as [t|e|w]; try reflexivity.
  assert (K : match f s with (x, Ok s) => items_into f fuel (l ++ [x]) s | (x, r) => (l ++ [x], r) end =
              match f s with (x, Ok s) => items_into f fuel' (l ++ [x]) s | (x, r) => (l ++ [x], r) end).
  { destruct (f s) as [x [s1|e|w]] eqn:F; try reflexivity. assert ((left_of s1 < left_of s)%nat) by (apply (P s x); now rewrite F). apply IH; lia. }
  destruct t as [[]|]; try exact K. reflexivity.
Qed.
Lemma members_fuel (ps : list (bytes * (val -> jstream -> jinto))) : Forall (fun p => forall cur, progresses (fun s => drop (snd p cur s))) ps ->
  forall fuel fuel' l s, (left_of s < fuel)%nat -> (left_of s < fuel')%nat -> members_into ps fuel l s = members_into ps fuel' l s.
Proof.
  intros P. induction fuel as [|fuel IH]; intros [|fuel'] l s L L'; try lia. cbn [members_into].
  destruct (peek_token s) as [t|e|w]; try reflexivity.
  match goal with |- match t with Some _ => _ | None => ?a end = match t with Some _ => _ | None => ?b end => assert (K : a = b) end.
  { destruct (get_key s) as [[k s1]|e|w] eqn:Hk; try reflexivity. apply get_key_len in Hk. destruct (find_named k ps 0) as [[i f]|] eqn:Fn.
    - destruct (nthz l i) as [cur|]; [|reflexivity]. destruct (f cur s1) as [x [s2|e|w]] eqn:F; try reflexivity.
      apply find_named_In in Fn. rewrite Forall_forall in P. assert ((left_of s2 < left_of s1)%nat) by (apply (P _ Fn cur s1 x); cbn [snd]; now rewrite F). apply IH; lia.
    - destruct (from_json_skip_value s1) as [s2|e|w] eqn:F; try reflexivity. apply skip_len in F. apply IH; lia. }
  destruct t as [[]|]; try exact K. reflexivity.
Qed.
Lemma into_progress E pf t old : progresses (fun s => drop (from_json_into E pf t old s)).
Proof. intros s v s'. rewrite from_json_drop. apply from_json_progress. Qed.
(** What "anew" means in the theorems below: zeros, empty texts and containers, empty optionals. *)
Theorem C58_new_objects : forall t, unrecursive t = true -> instantiable (erase t) = true -> blank (erase t) (jdefault t).
Proof.
  unfold jdefault. induction t as [b|t IH|t IH|tys IH|nm fs IH|a b IHa IHb|t IH| |t IH|names|k] using jty_ind'; intros R Ti; cbn [erase default_of] in *; try discriminate R.
  - destruct b; cbn [scalar_ty];
      repeat first [ apply Bl_int | apply Bl_varuint32 | apply Bl_varint32 | apply Bl_bool | apply Bl_float | apply Bl_string | apply Bl_stream | apply Bl_vector
                   | apply Bl_none | apply Forall_nil | apply Forall_cons | apply Bl_more
                   | match goal with |- blank ?x _ => let y := eval hnf in x in progress change x with y end
                   | apply Bl_variant | apply Bl_struct | apply Bl_members | (apply Bl_array; [reflexivity|]) | progress cbn [default_of repeat map] ].
  - apply Bl_vector.
  - apply Bl_optional.
  - destruct tys as [|t tys]; [discriminate Ti|]. cbn [map] in *. apply Forall_cons_iff in IH as [H _]. apply Bl_variant.
    cbn [instantiable forallb unrecursive] in *. apply andb_prop in R as [R _]. apply andb_prop in Ti as [_ Ti]. apply andb_prop in Ti as [Ti _]. auto.
  - apply Bl_struct, Bl_members. cbn [instantiable ty_ok] in Ti. apply andb_prop in Ti as [_ Ti]. apply andb_prop in Ti as [_ Ti].
    cbn [unrecursive] in R. induction IH as [|f fs H _ IHf]; cbn [map]; [apply Bl_none|apply Bl_more].
    + cbn [map forallb] in *. apply andb_prop in R as [R _]. apply andb_prop in Ti as [Ti _]. auto.
    + apply IHf; cbn [map forallb] in *; apply andb_prop in R as [_ R]; apply andb_prop in Ti as [_ Ti]; auto.
  - cbn [unrecursive] in R. apply andb_prop in R as [Ra Rb]. cbn [instantiable forallb] in Ti. apply andb_prop in Ti as [_ Ti]. apply andb_prop in Ti as [Ta Ti]. apply andb_prop in Ti as [Tb _].
    apply Bl_members. cbn [map]. apply Bl_more; [auto|]. apply Bl_more; [auto|]. apply Bl_none.
  - apply Bl_maybe. cbn [instantiable] in Ti. apply andb_prop in Ti as [_ Ti]. auto.
  - apply Bl_stream.
  - apply Bl_stream.
  - apply Bl_int.
Qed.
Print Assumptions C58_new_objects.
(** One element of a vector: it is made anew and then read; if that throws, the vector has it as it was left. *)
Theorem C58_vector_step : forall E pf t l ts e,
  from_json_into E pf (JVec t) (VList l) (JS (TkStartArray :: TkEndArray :: ts) e) = (VList l, Ok (JS ts e)) /\
  (ts <> [] -> hd_error ts <> Some TkEndArray ->
   from_json_into E pf (JVec t) (VList l) (JS (TkStartArray :: ts) e) =
   match from_json_into E pf t (jdefault t) (JS ts e) with
   | (x, Ok (JS ts' e')) => from_json_into E pf (JVec t) (VList (l ++ [x])) (JS (TkStartArray :: ts') e')
   | (x, r) => (VList (l ++ [x]), r)
   end).
Proof.
  intros E pf t l ts e. split; [reflexivity|]. intros Ne Nh. cbn [from_json_into]. unfold get_start_array at 1. unfold peek_token at 1. cbn [toks bind keeping]. unfold eat_token. cbn [toks tl jtail].
  unfold fuel_of at 1. cbn [toks]. cbn [items_into]. destruct ts as [|k ts]; [congruence|]. unfold peek_token. cbn [toks].
  assert (K : closing get_end_array (match from_json_into E pf t (jdefault t) (JS (k :: ts) e) with
       | (x, Ok s) => items_into (from_json_into E pf t (jdefault t)) (List.length (k :: ts)) (l ++ [x]) s | (x, r) => (l ++ [x], r) end) =
    match from_json_into E pf t (jdefault t) (JS (k :: ts) e) with
    | (x, Ok (JS ts' e')) => keeping (VList (l ++ [x])) (get_start_array (JS (TkStartArray :: ts') e'))
         (fun s => closing get_end_array (items_into (from_json_into E pf t (jdefault t)) (fuel_of s) (l ++ [x]) s))
    | (x, r) => (VList (l ++ [x]), r)
    end).
  { destruct (from_json_into E pf t (jdefault t) (JS (k :: ts) e)) as [x [[ts' e']|er|w]] eqn:F; try reflexivity.
    assert (P : (left_of (JS ts' e') < left_of (JS (k :: ts) e))%nat) by (apply (into_progress E pf t (jdefault t) _ x); now rewrite F).
    unfold get_start_array, peek_token, eat_token. cbn [toks bind keeping tl jtail]. f_equal. unfold left_of in P. cbn [toks] in P.
    apply items_fuel; [apply into_progress|unfold left_of; cbn [toks]; lia|unfold left_of, fuel_of; cbn [toks]; lia]. }
  destruct k; try exact K. now destruct Nh.
Qed.
Print Assumptions C58_vector_step.
(** One member of a struct: the first with this name is read in place; if that throws, it stays as it was left
    and the other members are not touched. Keys without member are skipped with their value. *)
Theorem C58_struct_step : forall E pf name fs l ts e k,
  from_json_into E pf (JStruct name fs) (VList l) (JS (TkStartObject :: TkEndObject :: ts) e) = (VList l, Ok (JS ts e)) /\
  (forall before t after x lb la, fs = before ++ (k, t) :: after -> ~ In k (map fst before) -> l = lb ++ x :: la -> List.length lb = List.length before ->
   from_json_into E pf (JStruct name fs) (VList l) (JS (TkStartObject :: TkKey k :: ts) e) =
   match from_json_into E pf t x (JS ts e) with
   | (y, Ok (JS ts' e')) => from_json_into E pf (JStruct name fs) (VList (lb ++ y :: la)) (JS (TkStartObject :: ts') e')
   | (y, r) => (VList (lb ++ y :: la), r)
   end) /\
  (~ In k (map fst fs) ->
   from_json_into E pf (JStruct name fs) (VList l) (JS (TkStartObject :: TkKey k :: ts) e) =
   match from_json_skip_value (JS ts e) with
   | Ok (JS ts' e') => from_json_into E pf (JStruct name fs) (VList l) (JS (TkStartObject :: ts') e')
   | r => (VList l, r)
   end).
Proof.
  intros E pf name fs l ts e k. split; [reflexivity|]. set (ps := map (fun f : bytes * jty => (fst f, from_json_into E pf (snd f))) fs).
  assert (P : Forall (fun p => forall cur, progresses (fun s => drop (snd p cur s))) ps).
  { apply Forall_map. apply Forall_forall. intros f _ cur. cbn [snd]. apply into_progress. }
  assert (St : forall l ts e, keeping (VList l) (get_start_object (JS (TkStartObject :: ts) e))
     (fun s => closing get_end_object (members_into ps (fuel_of s) l s)) = closing get_end_object (members_into ps (fuel_of (JS ts e)) l (JS ts e))).
  { reflexivity. }
  split.
  - intros before t after x lb la Hf Hn Hl Len. cbn [from_json_into]. fold ps. rewrite (St l (TkKey k :: ts) e).
    unfold fuel_of at 1. cbn [toks List.length]. remember (S (List.length ts)) as n eqn:En. cbn [members_into]. unfold peek_token, get_key. cbn [toks bind]. unfold peek_token. cbn [toks bind].
    assert (Fn : find_named k ps 0 = Some (Z.of_nat (List.length before), from_json_into E pf t)).
    { unfold ps. rewrite Hf. clear -Hn. rewrite <- (Z.add_0_l (Z.of_nat _)). generalize 0 as z. induction before as [|b before IH]; intros z; cbn [app map find_named fst snd List.length].
      - rewrite beq_refl. f_equal. f_equal. lia.
      - rewrite (proj2 (beq_neq k (fst b))) by (intros ->; apply Hn; now left). rewrite IH by (intros H; apply Hn; now right). f_equal. f_equal. lia. }
    rewrite Fn. assert (Nx : nthz l (Z.of_nat (List.length before)) = Some x).
    { rewrite Hl, <- Len. clear. induction lb as [|b lb IH]; [reflexivity|]. cbn [app List.length nthz]. destruct (Z.eqb_spec (Z.of_nat (S (List.length lb))) 0); [lia|]. rewrite <- IH. f_equal. lia. }
    assert (Sx : forall y, set_nth l (Z.to_nat (Z.of_nat (List.length before))) y = lb ++ y :: la).
    { intros y. rewrite Nat2Z.id, <- Len, Hl. clear. induction lb as [|b lb IH]; [reflexivity|]. cbn [app List.length set_nth]. now rewrite IH. }
    rewrite Nx. unfold eat_token. cbn [toks tl jtail]. destruct (from_json_into E pf t x (JS ts e)) as [y [[ts' e']|er|w]] eqn:F; cbv iota beta; rewrite Sx; try reflexivity.
    assert (Pr : (left_of (JS ts' e') < left_of (JS ts e))%nat) by (apply (into_progress E pf t x _ y); now rewrite F).
    rewrite (St _ ts' e'). f_equal. unfold left_of in Pr. cbn [toks] in Pr. apply members_fuel; [exact P|unfold left_of; cbn [toks]; lia|unfold left_of, fuel_of; cbn [toks]; lia].
  - intros Hn. cbn [from_json_into]. fold ps. rewrite (St l (TkKey k :: ts) e).
    unfold fuel_of at 1. cbn [toks List.length]. remember (S (List.length ts)) as n eqn:En. cbn [members_into]. unfold peek_token, get_key. cbn [toks bind]. unfold peek_token. cbn [toks bind].
    assert (Fn : find_named k ps 0 = None).
    { unfold ps. clear -Hn. generalize 0 as z. induction fs as [|f fs IH]; intros z; cbn [map find_named fst snd]; [reflexivity|].
      rewrite (proj2 (beq_neq k (fst f))) by (intros ->; apply Hn; now left). apply IH. intros H. apply Hn. now right. }
    rewrite Fn. unfold eat_token. cbn [toks tl jtail]. destruct (from_json_skip_value (JS ts e)) as [[ts' e']|er|w] eqn:F; try reflexivity.
    apply skip_len in F. rewrite (St _ ts' e'). f_equal. unfold left_of in F. cbn [toks] in F.
    apply members_fuel; [exact P|unfold left_of; cbn [toks]; lia|unfold left_of, fuel_of; cbn [toks]; lia].
Qed.
Print Assumptions C58_struct_step.
(** Optionals and variants: what they held is gone once the kind of the new contents is known. *)
Theorem C58_optional_step : forall E pf t old ts e,
  from_json_into E pf (JOpt t) old (JS (TkNull :: ts) e) = (VOpt None, Ok (JS ts e)) /\
  (ts <> [] -> hd_error ts <> Some TkNull -> exists x r,
   from_json_into E pf t (jdefault t) (JS ts e) = (x, r) /\ from_json_into E pf (JOpt t) old (JS ts e) = (VOpt (Some x), r)).
Proof.
  intros E pf t old ts e. split; [reflexivity|]. intros Ne Nh. destruct (from_json_into E pf t (jdefault t) (JS ts e)) as [x r] eqn:F. exists x, r. split; [reflexivity|].
  cbn [from_json_into]. destruct ts as [|k ts]; [congruence|]. unfold get_null_pred, peek_token. cbn [toks bind].
  destruct k; try (cbn [keeping fst snd]; now rewrite F). now destruct Nh.
Qed.
Print Assumptions C58_optional_step.
Theorem C58_variant_step : forall E pf us old k ts e,
  (forall before t after, us = before ++ t :: after -> type_name t = k -> ~ In k (map type_name before) -> exists x r,
   from_json_into E pf t (jdefault t) (JS ts e) = (x, r) /\
   from_json_into E pf (JVariant us) old (JS (TkStartArray :: TkString k :: ts) e) =
   (VVar (Z.of_nat (List.length before)) x, match r with Ok s => get_end_array s | _ => r end)) /\
  (~ In k (map type_name us) -> from_json_into E pf (JVariant us) old (JS (TkStartArray :: TkString k :: ts) e) = (old, Err E_invalid_type_for_variant)).
Proof.
  intros E pf us old k ts e. split.
  - intros before t after Hu Ht Hn. destruct (from_json_into E pf t (jdefault t) (JS ts e)) as [x r] eqn:F. exists x, r. split; [reflexivity|].
    cbn [from_json_into]. unfold get_start_array, get_string, peek_token, eat_token. cbn [toks bind keeping tl jtail]. unfold peek_token. cbn [toks bind keeping tl jtail fst snd].
    assert (Fn : find_named k (map (fun t' => (type_name t', from_json_into E pf t' (jdefault t'))) us) 0 = Some (Z.of_nat (List.length before), from_json_into E pf t (jdefault t))).
    { rewrite Hu. clear -Hn Ht. rewrite <- (Z.add_0_l (Z.of_nat _)). generalize 0 as z. induction before as [|b before IH]; intros z; cbn [app map find_named List.length].
      - rewrite Ht, beq_refl. f_equal. f_equal. lia.
      - rewrite (proj2 (beq_neq k (type_name b))) by (intros ->; apply Hn; now left). rewrite IH by (intros H; apply Hn; now right). f_equal. f_equal. lia. }
    rewrite Fn, F. now destruct r.
  - intros Hn. cbn [from_json_into]. unfold get_start_array, get_string, peek_token, eat_token. cbn [toks bind keeping tl jtail]. unfold peek_token. cbn [toks bind keeping tl jtail fst snd].
    assert (Fn : find_named k (map (fun t' => (type_name t', from_json_into E pf t' (jdefault t'))) us) 0 = None).
    { clear -Hn. generalize 0 as z. induction us as [|f us IH]; intros z; cbn [map find_named]; [reflexivity|].
      rewrite (proj2 (beq_neq k (type_name f))) by (intros ->; apply Hn; now left). apply IH. intros H. apply Hn. now right. }
    now rewrite Fn.
Qed.
Print Assumptions C58_variant_step.
(** ** Everything else is replaced as a whole *)
Theorem C58_replaced : forall E pf t a b s,
  match t with JScalar _ | JOpt _ | JVariant _ => True | _ => False end ->
  (forall v s', from_json_into E pf t a s = (v, Ok s') -> from_json_into E pf t b s = (v, Ok s')) /\
  (match t with JScalar _ => False | _ => True end ->
     fst (from_json_into E pf t a s) = fst (from_json_into E pf t b s) \/
     fst (from_json_into E pf t a s) = a /\ fst (from_json_into E pf t b s) = b).
Proof.
  intros E pf t a b s H. destruct t; try (now destruct H); split; try (now intros []).
  - intros v s'.
    assert (K : keeping a (get_string s) (scalar_into E pf b0 a) = (v, Ok s') -> keeping b (get_string s) (scalar_into E pf b0 b) = (v, Ok s')).
    { destruct (get_string s) as [[z s1]|e|w]; cbn [keeping scalar_into]; try discriminate. now destruct (scalar_from_text E b0 z). }
    destruct b0; try exact K. cbn [from_json_into]. now destruct (get_bool s) as [[z s1]|e|w].
  - intros v s'. cbn [from_json_into]. destruct (get_null_pred s) as [[[|] s1]|e|w]; cbn [keeping fst snd]; auto; discriminate.
  - intros _. cbn [from_json_into]. destruct (get_null_pred s) as [[[|] s1]|e|w]; cbn [keeping fst snd]; auto.
  - intros v s'. cbn [from_json_into]. destruct (get_start_array s) as [s1|e|w]; cbn [keeping]; try discriminate.
    destruct (get_string s1) as [[k s2]|e|w]; cbn [keeping fst snd]; try discriminate. destruct (find_named k _ 0) as [[i f]|]; [auto|discriminate].
  - intros _. cbn [from_json_into]. destruct (get_start_array s) as [s1|e|w]; cbn [keeping]; auto.
    destruct (get_string s1) as [[k s2]|e|w]; cbn [keeping fst snd]; auto. destruct (find_named k _ 0) as [[i f]|]; auto.
Qed.
Print Assumptions C58_replaced.

(** ** Built-in types after an exception
    A token of the wrong kind leaves the object alone. A text which is not accepted leaves the part
    read so far, for the types of [scalar_after]; the others keep their value. *)
Theorem C58_scalars : forall E pf b old s v e,
  object key_env (scalar_ty b) old -> from_json_into E pf (JScalar b) old s = (v, Err e) ->
  match b, get_string s with
  | B_bool, _ | _, Err _ | _, Undef _ => v = old
  | _, Ok (text, _) => scalar_after (ov E) pf b old text v
  end.
Proof.
  intros E pf b old s v e Ob H.
  assert (K : keeping old (get_string s) (scalar_into E pf b old) = (v, Err e) ->
    match get_string s with Ok (text, _) => scalar_after (ov E) pf b old text v | _ => v = old end).
  { clear H. destruct (get_string s) as [[z s1]|e1|w]; cbn [keeping scalar_into]; intros H; try congruence.
    destruct (scalar_from_text E b z) as [x|e1|w] eqn:Sc; try congruence. assert (v = scalar_left E pf b old z) by congruence. subst v. eapply scalar_left_after; eauto. }
  destruct b; try exact (K H). cbn [from_json_into] in H. destruct (get_bool s) as [[z s1]|e1|w]; cbn [keeping] in H; congruence.
Qed.
Print Assumptions C58_scalars.

(** ** Complete texts *)
(** The text of a value, read into any object of the type: vectors get its elements in addition,
    everything else becomes equal to the value. *)
Theorem C58_roundtrip_used : forall E pf env fuel t v old,
  jwf env fuel t v = true -> two_way t = true -> names_distinct t -> survives E t v -> ov E = Wrap -> object key_env (erase t) old ->
  exists text, convert_to_json E env fuel t v = Ok text /\
    (short text -> from_json_into E pf t old (open_json text) = (over t old v, Ok (JS [] None))) /\
    (replaced t = true -> over t old v = v).
Proof.
  intros E pf env fuel t v old Wf T N S W Ob. apply object_shaped in Ob. rewrite convert_to_json_spec by exact Wf.
  destruct (written_text E env fuel t v Wf T N S W) as (j & D & _ & Hb & J). rewrite D. cbn [bind]. exists (print j). split; [reflexivity|].
  assert (R : treads E t old j (over t old v)) by (destruct fuel as [|fuel]; eapply (tdoc_over E _ _ W); eauto).
  split.
  - intros Hs. assert (F : from_json E t old (open_json (print j)) = Ok (over t old v, JS [] None)).
    { unfold open_json. rewrite J. rewrite <- (app_nil_r (tokens j)). apply (proj1 (reads_run E)); [exact R|]. eapply short_small; eauto. }
    rewrite <- (from_json_drop E pf) in F. destruct (from_json_into E pf t old (open_json (print j))) as [x [y|y|y]]; cbn [drop] in F; congruence.
  - intros Rp. destruct fuel as [|fuel]; eapply over_replaced; eauto.
Qed.
Print Assumptions C58_roundtrip_used.
(** Trying again: whatever was read into the object before, with exceptions or without, a type
    without vectors then gets the value of the text. *)
Theorem C58_retry : forall E pf env fuel t v old tries,
  float_lib_ok E -> parses_in_range pf -> instantiable (erase t) = true -> unrecursive t = true ->
  Forall (fun text => bytes_ok text /\ short text) tries ->
  jwf env fuel t v = true -> two_way t = true -> names_distinct t -> survives E t v -> ov E = Wrap -> replaced t = true -> object key_env (erase t) old ->
  exists text, convert_to_json E env fuel t v = Ok text /\
    (short text -> from_json_into E pf t (fold_left (fun o text => fst (from_json_into E pf t o (open_json text))) tries old) (open_json text) = (v, Ok (JS [] None))).
Proof.
  intros E pf env fuel t v old tries HE Hp Ti U Ft Wf T N S W Rp Ob.
  assert (O2 : object key_env (erase t) (fold_left (fun o text => fst (from_json_into E pf t o (open_json text))) tries old)).
  { revert old Ob. induction Ft as [|x l [Hb Hs] _ IH]; intros old Ob; cbn [fold_left]; [exact Ob|]. apply IH. now apply C58_objects. }
  destruct (C58_roundtrip_used E pf env fuel t v _ Wf T N S W O2) as (text & H1 & H2 & H3). exists text. split; [exact H1|]. intros Hs. rewrite (H2 Hs), (H3 Rp). reflexivity.
Qed.
Print Assumptions C58_retry.

(** ** What does not hold *)
(** A failed call may have changed the object, and trying again then gives a vector the same elements twice. *)
Definition zero_floats : nat -> bytes -> Z := fun _ _ => 0.
Definition uints : jty := JVec (JScalar B_uint32).
Theorem C58_unchanged_refuted : forall E,
  from_json_into E zero_floats uints (VList []) (open_json (str "[1,2,""3x""]")) = (VList [VInt 1; VInt 2; VInt 3], Err E_expected_int) /\
  from_json_into E zero_floats uints (VList [VInt 1; VInt 2; VInt 3]) (open_json (str "[1,2,3]")) =
    (VList [VInt 1; VInt 2; VInt 3; VInt 1; VInt 2; VInt 3], Ok (JS [] None)).
Proof. intros E. split; vm_compute; reflexivity. Qed.
Print Assumptions C58_unchanged_refuted.

(** A concrete case: a used object of a struct, a text which is not accepted, and the text of a value. *)
Definition used_ty : jty := JStruct (str "s") [(str "a", JScalar B_int16); (str "b", JOpt uints); (str "c", JScalar B_asset)].
Definition used_old : val := VList [VInt 7; VOpt (Some (VList [VInt 9])); VList [VInt 5; VInt 1396790276]].
Definition used_new : val := VList [VInt (-3); VOpt (Some (VList [VInt 1])); VList [VInt 20; VInt 1396790276]].
Example C58_example :
  object key_env (erase used_ty) used_old /\ unrecursive used_ty = true /\ instantiable (erase used_ty) = true /\ replaced used_ty = true /\
  two_way used_ty = true /\ jwf (fun _ => JView) 0 used_ty used_new = true /\ names_distinct used_ty /\
  (forall E, from_json_into E zero_floats used_ty used_old (open_json (str "{""a"":""-40000"",""c"":""1.5000 SYS""}")) =
     (VList [VInt (-4000); VOpt (Some (VList [VInt 9])); VList [VInt 5; VInt 1396790276]], Err E_number_out_of_range)) /\
  (forall E, from_json_into E zero_floats used_ty used_old (open_json (str "{""c"":""-1.50 SYS x"",""a"":3}")) =
     (VList [VInt 7; VOpt (Some (VList [VInt 9])); VList [VInt (-150); VInt 1396790276]], Err E_expected_symbol_code)).
Proof.
  split; [apply (C54_values_are_objects key_env 0); reflexivity|]. do 5 (split; [reflexivity|]). split; [|split; intros E; vm_compute; reflexivity].
  cbn [names_distinct used_ty uints map fst snd fold_right]. split; [|split].
  - repeat constructor; cbn [In]; intuition discriminate.
  - repeat constructor; cbn [fst]; apply utf8_simple; repeat constructor; cbn; lia.
  - tauto.
Qed.
