(** * The reorderable converter (proofs only) *)
From Verif Require Import Base Stream StreamFacts TypedBin TypedSpec Json JsonSpec JsonPrint Keys KeysFacts Abi AbiSpec AbiScalar AbiScalarFacts AbiValue AbiRead Machine AbiBin AbiBinFacts AbiBinSound AbiJson AbiJsonFacts AbiJsonSound AbiJsonText AbiJsonSafe JsonSound JsonFacts.

(** ** json_to_jvalue *)
Fixpoint norm (j : jv) : jv :=
  match j with
  | JNum t => JStr t
  | JArr l => JArr (map norm l)
  | JObj l => JObj (fold_left (fun d kv => oset (fst kv) (norm (snd kv)) d) l [])
  | _ => j
  end.
Definition build (l : list (bytes * jv)) (d : list (bytes * jv)) : list (bytes * jv) :=
  fold_left (fun d kv => oset (fst kv) (norm (snd kv)) d) l d.
Lemma norm_obj l : norm (JObj l) = JObj (build l []). Proof. reflexivity. Qed.

Definition after_value (stk : list jpart) (x : jv) (rest : list token) : option jv :=
  match plug stk x with
  | inl stk' => jv_events stk' rest
  | inr y => match rest with [] => Some y | _ => None end
  end.
Lemma height_pos j : (1 <= height j)%nat.
Proof. destruct j; cbn [height]; lia. Qed.
Lemma height_arr l n : (height (JArr l) <= S n)%nat <-> Forall (fun j => (height j <= n)%nat) l.
Proof.
  cbn [height]. induction l as [|j l IH]; cbn [fold_right]; [split; [constructor|lia]|].
  rewrite Forall_cons_iff, <- IH. lia.
Qed.
Lemma height_obj l n : (height (JObj l) <= S n)%nat <-> Forall (fun j => (height (snd j) <= n)%nat) l.
Proof.
  cbn [height]. induction l as [|j l IH]; cbn [fold_right]; [split; [constructor|lia]|].
  rewrite Forall_cons_iff, <- IH. lia.
Qed.
Lemma jv_value stk t x rest :
  (match t with TkNull => x = JNull | TkBool b => x = JBool b | TkString s => x = JStr s | _ => False end) ->
  jv_events stk (t :: rest) = if Nat.leb (List.length stk + 1) max_stack_size then after_value stk x rest else None.
Proof.
  intros H. cbn [jv_events]. unfold jv_event, after_value.
  destruct (Nat.ltb_spec max_stack_size (List.length stk)), (Nat.leb_spec (List.length stk + 1) max_stack_size),
    (Nat.ltb_spec max_stack_size (S (List.length stk))); try lia;
    try (destruct t; try contradiction; subst x; destruct stk as [|[] ?]; reflexivity); reflexivity.
Qed.
Lemma jv_start_obj stk rest : jv_events stk (TkStartObject :: rest) =
  if Nat.leb (List.length stk + 1) max_stack_size then jv_events (PObj [] [] :: stk) rest else None.
Proof.
  cbn [jv_events]. unfold jv_event.
  destruct (Nat.ltb_spec max_stack_size (List.length stk)), (Nat.leb_spec (List.length stk + 1) max_stack_size),
    (Nat.ltb_spec max_stack_size (S (List.length stk))); try lia; destruct stk as [|[] ?]; reflexivity.
Qed.
Lemma jv_start_arr stk rest : jv_events stk (TkStartArray :: rest) =
  if Nat.leb (List.length stk + 1) max_stack_size then jv_events (PArr [] :: stk) rest else None.
Proof.
  cbn [jv_events]. unfold jv_event.
  destruct (Nat.ltb_spec max_stack_size (List.length stk)), (Nat.leb_spec (List.length stk + 1) max_stack_size),
    (Nat.ltb_spec max_stack_size (S (List.length stk))); try lia; destruct stk as [|[] ?]; reflexivity.
Qed.
Lemma jv_end_obj d k stk rest : (S (List.length stk) <= max_stack_size)%nat ->
  jv_events (PObj d k :: stk) (TkEndObject :: rest) = after_value stk (JObj d) rest.
Proof.
  intros H. cbn [jv_events]. unfold jv_event. cbn [List.length].
  destruct (Nat.ltb_spec max_stack_size (S (List.length stk))); [lia|]. reflexivity.
Qed.
Lemma jv_end_arr d stk rest : (S (List.length stk) <= max_stack_size)%nat ->
  jv_events (PArr d :: stk) (TkEndArray :: rest) = after_value stk (JArr d) rest.
Proof.
  intros H. cbn [jv_events]. unfold jv_event. cbn [List.length].
  destruct (Nat.ltb_spec max_stack_size (S (List.length stk))); [lia|]. reflexivity.
Qed.
Lemma jv_key d k k' stk rest : (S (List.length stk) <= max_stack_size)%nat ->
  jv_events (PObj d k :: stk) (TkKey k' :: rest) = jv_events (PObj d k' :: stk) rest.
Proof.
  intros H. cbn [jv_events]. unfold jv_event. cbn [List.length].
  destruct (Nat.ltb_spec max_stack_size (S (List.length stk))); [lia|]. reflexivity.
Qed.

Definition fits (stk : list jpart) (j : jv) : bool := Nat.leb (List.length stk + height j) max_stack_size.
Lemma jv_run : forall j stk rest, jv_events stk (tokens j ++ rest) = if fits stk j then after_value stk (norm j) rest else None.
Proof.
  induction j as [|b|s|s|l IH|l IH] using jv_ind'; intros stk rest.
  - cbn [tokens app norm]. unfold fits. cbn [height]. now apply jv_value.
  - cbn [tokens app norm]. unfold fits. cbn [height]. now apply jv_value.
  - cbn [tokens app norm]. unfold fits. cbn [height]. now apply jv_value.
  - cbn [tokens app norm]. unfold fits. cbn [height]. now apply jv_value.
  - rewrite tokens_arr, jv_start_arr. unfold fits.
    destruct (Nat.leb_spec (List.length stk + 1) max_stack_size) as [Hs|Hs].
    2: { pose proof (height_pos (JArr l)). destruct (Nat.leb_spec (List.length stk + height (JArr l)) max_stack_size); [lia|reflexivity]. }
    assert (G : forall l' d, Forall (fun j => In j l) l' ->
       jv_events (PArr d :: stk) (concat (map tokens l') ++ TkEndArray :: rest) =
       if forallb (fits (PArr [] :: stk)) l' then after_value stk (JArr (d ++ map norm l')) rest else None).
    { induction l' as [|j l' IHl]; intros d Hin; cbn [map concat app forallb].
      - rewrite jv_end_arr by lia. now rewrite app_nil_r.
      - inversion Hin; subst. rewrite <- app_assoc. rewrite Forall_forall in IH. rewrite (IH j) by assumption.
        change (fits (PArr d :: stk) j) with (fits (PArr [] :: stk) j). destruct (fits (PArr [] :: stk) j); cbn [andb]; [|reflexivity].
        unfold after_value at 1. cbn [plug]. rewrite IHl by assumption. rewrite <- app_assoc. reflexivity. }
    rewrite G by (apply Forall_forall; auto). cbn [app norm].
    replace (forallb (fits (PArr [] :: stk)) l) with (Nat.leb (List.length stk + height (JArr l)) max_stack_size); [reflexivity|].
    apply eq_true_iff_eq. rewrite Nat.leb_le, forallb_forall. unfold fits.
    transitivity ((height (JArr l) <= S (max_stack_size - List.length stk - 1))%nat); [lia|]. rewrite height_arr, Forall_forall.
    split; intros H x Hx; specialize (H x Hx); rewrite ?Nat.leb_le in *; cbn [List.length] in *; lia.
  - rewrite tokens_obj, jv_start_obj. unfold fits.
    destruct (Nat.leb_spec (List.length stk + 1) max_stack_size) as [Hs|Hs].
    2: { pose proof (height_pos (JObj l)). destruct (Nat.leb_spec (List.length stk + height (JObj l)) max_stack_size); [lia|reflexivity]. }
    assert (G : forall l' d k, Forall (fun j => In j l) l' ->
       jv_events (PObj d k :: stk) (mtokens l' ++ TkEndObject :: rest) =
       if forallb (fun kv => fits (PArr [] :: stk) (snd kv)) l' then after_value stk (JObj (build l' d)) rest else None).
    { induction l' as [|[k' j] l' IHl]; intros d k Hin; cbn [forallb].
      - change (mtokens [] ++ TkEndObject :: rest) with (TkEndObject :: rest). change (build [] d) with d. now rewrite jv_end_obj by lia.
      - inversion Hin; subst. rewrite mtokens_cons. cbn [app]. rewrite jv_key by lia. rewrite <- app_assoc.
        rewrite Forall_forall in IH. rewrite (IH (k', j)) by assumption. cbn [snd].
        change (fits (PObj d k' :: stk) j) with (fits (PArr [] :: stk) j). destruct (fits (PArr [] :: stk) j); cbn [andb]; [|reflexivity].
        unfold after_value at 1. cbn [plug]. rewrite IHl by assumption. reflexivity. }
    rewrite G by (apply Forall_forall; auto). cbn [app]. rewrite norm_obj.
    replace (forallb (fun kv => fits (PArr [] :: stk) (snd kv)) l) with (Nat.leb (List.length stk + height (JObj l)) max_stack_size); [reflexivity|].
    apply eq_true_iff_eq. rewrite Nat.leb_le, forallb_forall. unfold fits.
    transitivity ((height (JObj l) <= S (max_stack_size - List.length stk - 1))%nat); [lia|]. rewrite height_obj, Forall_forall.
    split; intros H x Hx; specialize (H x Hx); rewrite ?Nat.leb_le in *; cbn [List.length] in *; lia.
Qed.
Theorem json_to_jvalue_spec text j : tokenize text = (tokens j, None) ->
  json_to_jvalue text = if Nat.leb (height j) max_stack_size then Ok (norm j) else Err E_unspecific_syntax_error.
Proof.
  intros H. unfold json_to_jvalue. rewrite H. pose proof (jv_run j [] []) as R. rewrite app_nil_r in R. rewrite R.
  unfold fits. cbn [List.length plus]. destruct (Nat.leb _ _); reflexivity.
Qed.

(** ** Facts about [norm] *)
Lemma ofind_oset k x k' d : ofind k (oset k' x d) = if beq k' k then Some x else ofind k d.
Proof.
  induction d as [|[k1 y] d IH]; cbn [oset ofind].
  - reflexivity.
  - destruct (beq k1 k') eqn:E1; cbn [ofind].
    + apply beq_eq in E1. subst k1. destruct (beq k' k); reflexivity.
    + rewrite IH. destruct (beq k1 k) eqn:E2; [|reflexivity]. apply beq_eq in E2. subst k1.
      destruct (beq k' k) eqn:E3; [|reflexivity]. apply beq_eq in E3. subst. rewrite beq_refl in E1. discriminate.
Qed.
Lemma ofind_build k l : forall d, ofind k (build l d) = match last_value k l with Some j => Some (norm j) | None => ofind k d end.
Proof.
  induction l as [|[k' j] l IH]; intros d; cbn [last_value]; [reflexivity|].
  change (build ((k', j) :: l) d) with (build l (oset k' (norm j) d)). rewrite IH, ofind_oset.
  destruct (last_value k l); [reflexivity|]. destruct (beq k' k); reflexivity.
Qed.
Lemma last_value_In k l j : last_value k l = Some j -> exists k', In (k', j) l.
Proof.
  induction l as [|[k' x] l IH]; cbn [last_value]; [discriminate|].
  destruct (last_value k l); [intros H; destruct (IH H) as [k1 ?]; exists k1; right; assumption|].
  destruct (beq k' k); [|discriminate]. intros H. assert (x = j) by congruence. subst. exists k'. left. reflexivity.
Qed.
Lemma ofind_In k l y : ofind k l = Some y -> exists k', In (k', y) l.
Proof.
  induction l as [|[k' x] l IH]; cbn [ofind]; [discriminate|].
  destruct (beq k' k); [|intros H; destruct (IH H) as [k1 ?]; exists k1; right; assumption].
  intros H. assert (x = y) by congruence. subst. exists k'. left. reflexivity.
Qed.
Lemma oset_Forall (P : jv -> Prop) k x d : P x -> Forall (fun kv => P (snd kv)) d -> Forall (fun kv : bytes * jv => P (snd kv)) (oset k x d).
Proof.
  intros Hx. induction 1 as [|[k' y] d Hy Hd IH]; cbn [oset]; [constructor; [exact Hx|constructor]|].
  destruct (beq k' k); constructor; auto.
Qed.
Lemma build_Forall (P : jv -> Prop) l : Forall (fun kv => P (norm (snd kv))) l ->
  forall d, Forall (fun kv => P (snd kv)) d -> Forall (fun kv : bytes * jv => P (snd kv)) (build l d).
Proof.
  induction 1 as [|[k x] l Hx _ IH]; intros d Hd; [exact Hd|].
  change (build ((k, x) :: l) d) with (build l (oset k (norm x) d)). apply IH, oset_Forall; auto.
Qed.
Lemma norm_texts j : texts_ok j -> texts_ok (norm j).
Proof.
  induction j as [|b|s|s|l IH|l IH] using jv_ind'; intros H; try exact H.
  - inversion H; subst. constructor; assumption.
  - inversion H; subst. cbn [norm]. constructor. rewrite Forall_map. rewrite Forall_forall in *. auto.
  - inversion H; subst. rewrite norm_obj. constructor. apply (build_Forall texts_ok); [|constructor].
    rewrite Forall_forall in *. auto.
Qed.
Lemma norm_height j : (height (norm j) <= height j)%nat.
Proof.
  induction j as [|b|s|s|l IH|l IH] using jv_ind'; try (cbn [norm height]; lia).
  - cbn [norm]. destruct (height (JArr l)) as [|n] eqn:H; [pose proof (height_pos (JArr l)); lia|].
    apply height_arr. rewrite Forall_map. assert (G : Forall (fun j => (height j <= n)%nat) l) by (apply height_arr; lia).
    rewrite Forall_forall in *. intros x Hx. specialize (IH x Hx). specialize (G x Hx). lia.
  - rewrite norm_obj. destruct (height (JObj l)) as [|n] eqn:H; [pose proof (height_pos (JObj l)); lia|].
    apply height_obj. apply (build_Forall (fun x => (height x <= n)%nat)); [|constructor].
    assert (G : Forall (fun j => (height (snd j) <= n)%nat) l) by (apply height_obj; lia).
    rewrite Forall_forall in *. intros x Hx. specialize (IH x Hx). specialize (G x Hx). cbv beta in *. lia.
Qed.
Lemma norm_null j : norm j = JNull <-> j = JNull.
Proof. split; [destruct j; try discriminate; auto|intros ->; reflexivity]. Qed.

(** ** The converter on values *)
Section Rread.
  Variables (E : float_lib) (m : amap).

  Fixpoint rfields (rec : jrec) (ext : bool) (fs : list (bytes * bytes)) (obj : list (bytes * jv)) (skip : bool) : res (list aval) :=
    match fs with
    | [] => Ok []
    | (name, q) :: fs' =>
        match ofind name obj with
        | None => let* x := is_ext_type m q in let* _ := check (x && ext) E_expected_field in rfields rec ext fs' obj true
        | Some y => let* _ := check (negb skip) E_unexpected_field in
                    let* v := rec (ext && is_nil fs') q y in
                    let* vs := rfields rec ext fs' obj skip in Ok (v :: vs)
        end
    end.
  Fixpoint ritems (rec : jrec) (q : bytes) (l : list jv) : res (list aval) :=
    match l with
    | [] => Ok []
    | j :: l' => let* v := rec false q j in let* vs := ritems rec q l' in Ok (v :: vs)
    end.
  Definition rvariant (rec : jrec) (ext : bool) (fs : list (bytes * bytes)) (x : jv) : res aval :=
    match x with
    | JArr [JStr name; y] =>
        match find_name name fs 0 with
        | None => Err E_invalid_type_for_variant
        | Some (i, q) => let* _ := check (i <? 2 ^ 32) E_varuint_too_big in let* v := rec ext q y in Ok (AVVar i v)
        end
    | _ => Err E_expected_variant
    end.
  Fixpoint rread (n : nat) (ext : bool) (p : bytes) (x : jv) : res aval :=
    match n with
    | O => too_deep
    | S n' =>
        let* d := deref p m in
        match d with
        | ABuiltin B_bool => match x with JBool b => Ok (AVBase B_bool (VBool b)) | _ => Err E_expected_bool end
        | ABuiltin b => match x with JStr t => let* v := scalar_from_text E b t in Ok (AVBase b v) | _ => Err E_expected_string end
        | AOptional q => match x with JNull => Ok AVNone | _ => let* v := rread n' ext q x in Ok (AVSome v) end
        | AExtension q => rread n' ext q x
        | AStruct fs => match x with
                        | JObj obj => let* vs := rfields (rread n') ext fs obj false in Ok (AVStruct vs)
                        | _ => Err E_expected_start_object
                        end
        | AArray q => match x with
                      | JArr l => let* _ := check (Z.of_nat (List.length l) <? 2 ^ 32) E_varuint_too_big in
                                  let* vs := ritems (rread n') q l in Ok (AVList vs)
                      | _ => Err E_expected_start_array
                      end
        | AVariant fs => rvariant (rread n') ext fs x
        | AAliasDef _ | AStructDef _ | AVariantDef _ | AAlias _ => no_serializer
        end
    end.

  (** ** Simulation *)
  Notation reach := (reaches (rstep E m)).
  Definition routcome {A} (i : res rconfig) (x : res A) (P : A -> rconfig -> Prop) : Prop :=
    match x with
    | Ok a => exists c, P a c /\ reach i (Ok c)
    | Err e => reach i (Err e)
    | Undef w => reach i (Undef w)
    end.
  Lemma ro_from {A} i c (x : res A) P : reach i (Ok c) -> routcome (Ok c) x P -> routcome i x P.
  Proof.
    intros H. unfold routcome. destruct x as [a|e|w]; [intros (c' & Pc & R); exists c'; split; [exact Pc|]|intros R|intros R]; eapply reaches_trans; eauto.
  Qed.
  Lemma ro_bind {A B} i (x : res A) P (f : A -> res B) Q :
    routcome i x P -> (forall a c, x = Ok a -> P a c -> routcome (Ok c) (f a) Q) -> routcome i (let* a := x in f a) Q.
  Proof.
    intros H1 H2. destruct x as [a|e|w]; cbn [bind]; [|exact H1|exact H1]. destruct H1 as (c & Pc & R).
    eapply ro_from; [exact R|]. now apply H2.
  Qed.
  Lemma ro_ret {A B} i (x : res A) P (f : A -> B) (Q : B -> rconfig -> Prop) :
    routcome i x P -> (forall a c, x = Ok a -> P a c -> Q (f a) c) -> routcome i (let* a := x in Ok (f a)) Q.
  Proof.
    intros H1 H2. destruct x as [a|e|w]; cbn [bind]; [|exact H1|exact H1]. destruct H1 as (c & Pc & R). exists c. auto.
  Qed.
  Lemma ro_step {A} s i (x : res A) P : rstep E m s = (let* c := i in Ok (inl c)) -> routcome i x P -> routcome (Ok s) x P.
  Proof.
    intros Hs. unfold routcome. destruct x as [a|e|w]; [intros (c' & Pc & R); exists c'; split; [exact Pc|]|intros R|intros R]; eapply reaches_step; eauto.
  Qed.
  Lemma ro_loop {A} out f rest sk (x : res A) P :
    routcome (radvance m f rest (RSt out (f :: rest) sk)) x P -> routcome (Ok (RLoop (RSt out (f :: rest) sk))) x P.
  Proof. apply ro_step. reflexivity. Qed.

  Definition rdone (out : bytes) stk (ext : bool) (v : aval) (c : rconfig) : Prop :=
    exists sk, (sk = true -> ext = true) /\ c = RLoop (RSt (out ++ enc v) stk sk).
  Definition rsimulates (rec : jrec) (P : jv -> Prop) : Prop := forall ext p x out stk, P x -> texts_ok x ->
    routcome (Ok (RCall ext p x (RSt out stk false))) (rec ext p x) (rdone out stk ext).
  Hypothesis HE : float_lib_ok E.

  Lemma nthz_app {A} (a : list A) x b : nthz (a ++ x :: b) (Z.of_nat (List.length a)) = Some x.
  Proof. induction a as [|y a IH]; [reflexivity|]. cbn [app List.length nthz]. destruct (Z.eqb_spec (Z.of_nat (S (List.length a))) 0); [lia|].
    replace (Z.of_nat (S (List.length a)) - 1) with (Z.of_nat (List.length a)) by lia. exact IH. Qed.

  Lemma rsim_items rec P p q l0 stk : rsimulates rec P -> afind p m = Some (AArray q) -> Forall P l0 -> Forall texts_ok l0 ->
    forall l dn pos ext out S0, l0 = dn ++ l -> pos = Z.of_nat (List.length dn) - 1 ->
    routcome (rarray q (RF p ext (JArr l0) pos) stk (RSt out S0 false)) (ritems rec q l)
      (fun vs c => c = RLoop (RSt (out ++ concat (map enc vs)) stk false)).
  Proof.
    intros R Hp HP HT. induction l as [|x l IH]; intros dn pos ext out S0 -> ->; unfold rarray; cbn [rf_value rf_pos rf_type rf_ext ritems]; cbv zeta.
    - rewrite app_nil_r. replace (Z.of_nat (List.length dn) - 1 + 1) with (Z.of_nat (List.length dn)) by lia. rewrite Z.eqb_refl.
      eexists. split; [reflexivity|]. cbn [map concat]. rewrite app_nil_r. apply reaches_refl.
    - replace (Z.of_nat (List.length dn) - 1 + 1) with (Z.of_nat (List.length dn)) by lia. rewrite app_length. cbn [List.length].
      destruct (Z.eqb_spec (Z.of_nat (List.length dn)) (Z.of_nat (List.length dn + S (List.length l)))); [lia|].
      rewrite nthz_app. rewrite Forall_app in HP, HT. destruct HP as [HP1 HP2], HT as [HT1 HT2]. inversion HP2; inversion HT2; subst.
      cbn [r_out r_skip]. eapply ro_bind; [apply R; assumption|]. intros v c _ (sk & Hsk & ->).
      assert (sk = false) by (destruct sk; [specialize (Hsk eq_refl); discriminate|reflexivity]). subst sk.
      apply ro_loop. unfold radvance. cbn [rf_type]. unfold deref. rewrite Hp. cbn [bind].
      eapply ro_ret; [apply (IH (dn ++ [x])); [now rewrite <- app_assoc|rewrite app_length; cbn [List.length]; lia]|].
      intros vs c _ ->. cbn [map concat]. now rewrite <- app_assoc.
  Qed.

  Definition inside (P : jv -> Prop) (x : jv) : Prop :=
    match x with
    | JArr l => Forall P l
    | JObj l => Forall (fun kv => P (snd kv)) l
    | _ => True
    end.
  Lemma rsim_fields rec P p ext fields obj stk : rsimulates rec P -> afind p m = Some (AStruct fields) -> inside P (JObj obj) -> texts_ok (JObj obj) ->
    forall fs dn pos out S0 sk, fields = dn ++ fs -> pos = Z.of_nat (List.length dn) - 1 -> (sk = true -> ext = true) ->
    routcome (robject m fields (RF p ext (JObj obj) pos) stk (RSt out S0 sk)) (rfields rec ext fs obj sk)
      (fun vs c => exists sk', (sk' = true -> ext = true) /\ c = RLoop (RSt (out ++ concat (map enc vs)) stk sk')).
  Proof.
    intros R Hp HP HT. induction fs as [|[name q] fs IH]; intros dn pos out S0 sk Ef -> Hsk; unfold robject; cbn [rf_value rf_pos rf_type rf_ext rfields]; cbv zeta.
    - rewrite app_nil_r in Ef. subst dn. replace (Z.of_nat (List.length fields) - 1 + 1) with (Z.of_nat (List.length fields)) by lia. rewrite Z.eqb_refl.
      eexists. split; [exists sk; split; [exact Hsk|reflexivity]|]. cbn [map concat]. rewrite app_nil_r. apply reaches_refl.
    - replace (Z.of_nat (List.length dn) - 1 + 1) with (Z.of_nat (List.length dn)) by lia.
      assert (Ln : List.length fields = (List.length dn + S (List.length fs))%nat) by (rewrite Ef, app_length; reflexivity).
      destruct (Z.eqb_spec (Z.of_nat (List.length dn)) (Z.of_nat (List.length fields))); [lia|].
      rewrite Ef at 1. rewrite nthz_app.
      assert (Hl : (Z.of_nat (List.length dn) =? Z.of_nat (List.length fields) - 1) = is_nil fs)
        by (destruct fs; cbn [List.length is_nil] in *; [apply Z.eqb_eq|apply Z.eqb_neq]; lia).
      assert (Next : forall out sk, (sk = true -> ext = true) ->
        routcome (Ok (RLoop (RSt out (RF p ext (JObj obj) (Z.of_nat (List.length dn)) :: stk) sk))) (rfields rec ext fs obj sk)
         (fun vs c => exists sk', (sk' = true -> ext = true) /\ c = RLoop (RSt (out ++ concat (map enc vs)) stk sk'))).
      { intros out1 sk1 Hsk1. apply ro_loop. unfold radvance. cbn [rf_type]. unfold deref. rewrite Hp. cbn [bind].
        apply (IH (dn ++ [(name, q)])); [now rewrite <- app_assoc|rewrite app_length; cbn [List.length]; lia|exact Hsk1]. }
      destruct (ofind name obj) as [y|] eqn:Of; cbn [r_skip r_out].
      + destruct sk; cbn [negb]; [apply reaches_refl|]. change (check true E_unexpected_field) with (@Ok unit tt). cbn [bind]. rewrite Hl.
        destruct (ofind_In _ _ _ Of) as [k' Hin].
        assert (Py : P y) by (cbn [inside] in HP; rewrite Forall_forall in HP; apply (HP _ Hin)).
        assert (Ty : texts_ok y) by (inversion HT as [| | | | |? Hx]; subst; rewrite Forall_forall in Hx; apply (Hx _ Hin)).
        eapply ro_bind; [apply R; assumption|]. intros v c _ (sk & Hs & ->).
        assert (Eq : rfields rec ext fs obj false = rfields rec ext fs obj sk).
        { destruct fs; [reflexivity|]. cbn [is_nil] in Hs. rewrite andb_false_r in Hs. destruct sk; [discriminate Hs; reflexivity|reflexivity]. }
        rewrite Eq. eapply ro_ret; [apply Next|].
        * intros ->. specialize (Hs eq_refl). apply andb_true_iff in Hs. tauto.
        * intros vs c _ (sk' & Hsk' & ->). exists sk'. split; [exact Hsk'|]. cbn [map concat]. now rewrite <- app_assoc.
      + destruct (is_ext_type m q) as [x|e|w]; cbn [bind]; [|apply reaches_refl|apply reaches_refl].
        destruct (x && ext) eqn:X; [|apply reaches_refl]. change (check true E_expected_field) with (@Ok unit tt). cbn [bind].
        apply Next. intros _. apply andb_true_iff in X. tauto.
  Qed.

  Lemma rsim : forall n c ext p x out stk, chain_ok m c p -> (c <= 3)%nat -> (4 * height x + c <= n)%nat -> (forall q, chain_ok m 3 q) -> texts_ok x ->
    routcome (Ok (RCall ext p x (RSt out stk false))) (rread n ext p x) (rdone out stk ext).
  Proof.
    induction n as [|n IH]; intros c ext p x out stk Hc Lc Hn CK Hx; [pose proof (height_pos x); lia|].
    eapply ro_step; [reflexivity|]. cbn [rread]. unfold rcall.
    destruct c as [|c]; [destruct Hc|]. cbn [chain_ok] in Hc. unfold deref. destruct (afind p m) as [d|] eqn:Hp; [|apply reaches_refl]. cbn [bind].
    assert (RS : rsimulates (rread n) (fun y => (height y < height x)%nat)).
    { intros ext' p' y out' stk' Hy Ty. apply (IH 3%nat); auto; lia. }
    destruct d as [b| | | |q|q|q|q|fs|fs]; try apply reaches_refl.
    - cbn [r_out r_stack r_skip].
      destruct b; [destruct x; try apply reaches_refl; destruct b; (eexists; split; [|apply reaches_refl]); exists false; (split; [discriminate|reflexivity])|..];
      (destruct x; try apply reaches_refl; inversion Hx; subst; rewrite scalar_write_spec by assumption;
       match goal with |- context [scalar_from_text E ?bb ?t] => destruct (scalar_from_text E bb t) as [v|e|w]; cbn [bind]; try apply reaches_refl end;
       (eexists; split; [|apply reaches_refl]); exists false; (split; [discriminate|reflexivity])).
    - cbn [r_out r_stack r_skip].
      assert (JN : x = JNull \/ x <> JNull) by (destruct x; auto; right; discriminate). destruct JN as [->|JN].
      + eexists. split; [|apply reaches_refl]. exists false. split; [discriminate|reflexivity].
      + assert (G : routcome (Ok (RCall ext q x (RSt (out ++ [1]) stk false))) (let* v := rread n ext q x in Ok (AVSome v)) (rdone out stk ext)).
        { eapply ro_ret; [apply (IH c); auto; lia|]. intros v c0 _ (sk & Hsk & ->). exists sk. split; [exact Hsk|]. cbn [enc]. now rewrite <- app_assoc. }
        destruct x; try exact G. congruence.
    - apply (IH c); auto; lia.
    - destruct x as [| | | |l|l]; try apply reaches_refl. cbn [r_out r_stack r_skip]. rewrite vu_any by lia.
      destruct (_ <? 2 ^ 32); [|apply reaches_refl]. cbn [check bind].
      eapply ro_ret; [eapply (rsim_items _ (fun y => (height y < height (JArr l))%nat) p q l stk RS Hp) with (dn := []); try reflexivity|].
      + assert (G : Forall (fun j => (height j <= height (JArr l) - 1)%nat) l) by (apply height_arr; pose proof (height_pos (JArr l)); lia).
        rewrite Forall_forall in *. intros y Hy. specialize (G y Hy). pose proof (height_pos (JArr l)). lia.
      + inversion Hx; assumption.
      + intros vs c0 Hvs ->. exists false. split; [discriminate|]. cbn [enc].
        assert (L : List.length vs = List.length l).
        { clear -Hvs. revert vs Hvs. induction l as [|y l IHl]; intros vs H; cbn [ritems] in H; [assert (vs = []) by congruence; subst; reflexivity|].
          apply bind_Ok in H as (v & _ & H). apply bind_Ok in H as (vs' & H1 & H). assert (vs = v :: vs') by congruence. subst. cbn [List.length]. f_equal. now apply IHl. }
        rewrite L, <- app_assoc. reflexivity.
    - destruct x as [| | | |l|l]; try apply reaches_refl. cbn [r_out r_stack r_skip].
      eapply ro_ret; [eapply (rsim_fields _ (fun y => (height y < height (JObj l))%nat) p ext fs l stk RS Hp) with (dn := []); try reflexivity|].
      + cbn [inside]. assert (G : Forall (fun j => (height (snd j) <= height (JObj l) - 1)%nat) l) by (apply height_obj; pose proof (height_pos (JObj l)); lia).
        rewrite Forall_forall in *. intros y Hy. specialize (G y Hy). pose proof (height_pos (JObj l)). cbv beta in *. lia.
      + exact Hx.
      + discriminate.
      + intros vs c0 _ (sk & Hsk & ->). exists sk. split; [exact Hsk|reflexivity].
    - destruct x as [| | | |l|l]; try apply reaches_refl. destruct l as [|[] [|y [|z l]]]; try apply reaches_refl.
      cbn [r_out r_stack r_skip rvariant]. eapply ro_from; [apply reaches_refl|]. apply ro_loop. unfold radvance. cbn [rf_type]. unfold deref. rewrite Hp. cbn [bind rf_value rf_pos].
      rewrite Z.eqb_refl. destruct (find_name s fs 0) as [[i q]|] eqn:F; [|apply reaches_refl].
      pose proof (find_name_range _ _ _ _ _ F). cbn [r_out]. rewrite vu_any by lia. destruct (i <? 2 ^ 32); [|apply reaches_refl]. cbn [check bind rf_ext rf_type r_skip].
      eapply ro_bind.
      + inversion Hx as [| | | |? Hl|]; subst. inversion Hl as [|? ? _ Hl']; subst. inversion Hl'; subst. apply RS; [|assumption].
        cbn [height fold_right]. lia.
      + intros v c0 _ (sk & Hsk & ->). apply ro_loop. unfold radvance. cbn [rf_type]. unfold deref. rewrite Hp. cbn [bind rf_value rf_pos].
        change (1 =? 0) with false. cbn [r_out r_skip]. eexists. split; [|apply reaches_refl].
        exists sk. split; [exact Hsk|]. cbn [enc]. now rewrite <- app_assoc.
  Qed.
End Rread.

Theorem reorderable_run E m p j text bin : float_lib_ok E -> sound_map m -> texts_ok j -> tokenize text = (tokens j, None) ->
  json_to_bin_reorderable E m p text bin
    (if Nat.leb (height j) max_stack_size then let* v := rread E m (4 * height j + 3) true p (norm j) in Ok (bin ++ enc v)
     else Err E_unspecific_syntax_error).
Proof.
  intros HE SM Hj Ht. unfold json_to_bin_reorderable. rewrite (json_to_jvalue_spec _ _ Ht).
  destruct (Nat.leb (height j) max_stack_size); [|reflexivity]. unfold jvalue_to_bin.
  pose proof (norm_height j) as Hh.
  pose proof (rsim E m HE (4 * height j + 3) 3 true p (norm j) bin [] (sound_chain m p SM) (le_n _) ltac:(lia) (fun q => sound_chain m q SM) (norm_texts j Hj)) as S.
  destruct (rread E m (4 * height j + 3) true p (norm j)) as [v|e|w]; cbn [bind]; [|exact S|exact S].
  destruct S as (c & (sk & _ & ->) & R). eapply star_exec; [exact R|]. apply exec_done. reflexivity.
Qed.

Section Exact.
  Variables (E : float_lib) (m : amap).
  Hypothesis SM : sound_map m.
  Notation rd := (rread E m).

  Lemma norm_text j t : text_of j = Some t <-> norm j = JStr t.
  Proof. destruct j; cbn [text_of norm]; split; intros H; try discriminate; congruence. Qed.

  (** ** Soundness *)
  Definition rgood (rec : jrec) : Prop := forall ext q j v, rec ext q (norm j) = Ok v -> reads E m by_name ext q j v.
  Lemma rfields_skipped rec ext ms : forall fs vs, rfields m rec ext fs (build ms []) true = Ok vs ->
    vs = [] /\ (fs <> [] -> ext = true) /\ Forall (fun x => extension_type m (snd x)) fs /\ Forall (fun n => last_value n ms = None) (map fst fs).
  Proof.
    induction fs as [|[n q] fs IH]; intros vs H; cbn [rfields] in H.
    - assert (vs = []) by congruence. subst. repeat split; try constructor. congruence.
    - rewrite ofind_build in H. cbn [ofind] in H. destruct (last_value n ms) eqn:L; [discriminate|].
      apply bind_Ok in H as (x & Hx & H). apply bind_Ok in H as (? & Hc & H).
      destruct (x && ext) eqn:X; [|discriminate]. apply andb_true_iff in X as [-> ->].
      apply IH in H as (-> & _ & H1 & H2). split; [reflexivity|]. split; [reflexivity|]. split; constructor; auto.
      apply (is_ext_type_spec m q true Hx). reflexivity.
  Qed.
  Lemma rfields_sound rec ext ms : rgood rec -> forall fs vs, rfields m rec ext fs (build ms []) false = Ok vs ->
    exists sel, by_name (map fst fs) ms sel /\ reads_fields E m by_name ext fs sel vs.
  Proof.
    intros R. induction fs as [|[n q] fs IH]; intros vs H; cbn [rfields] in H.
    - assert (vs = []) by congruence. subst. exists []. split; [exists [], []; repeat split; constructor|constructor].
    - rewrite ofind_build in H. cbn [ofind] in H. destruct (last_value n ms) as [j|] eqn:L.
      + cbn [negb check bind] in H. apply bind_Ok in H as (v & Hv & H). apply bind_Ok in H as (vs' & Hvs & H).
        assert (vs = v :: vs') by congruence. subst. destruct (IH _ Hvs) as (sel & (gi & ab & Hn & H1 & H2) & Hf).
        exists (j :: sel). split; [exists (n :: gi), ab; split; [cbn [map fst app]; congruence|split; [constructor|]; assumption]|].
        constructor; [now apply R|assumption].
      + apply bind_Ok in H as (x & Hx & H). apply bind_Ok in H as (? & Hc & H).
        destruct (x && ext) eqn:X; [|discriminate]. apply andb_true_iff in X as [-> ->].
        apply rfields_skipped in H as (-> & _ & H1 & H2). exists []. split.
        * exists [], (n :: map fst fs). split; [reflexivity|]. split; [constructor|]. constructor; assumption.
        * apply rfields_omit. constructor; [|assumption]. apply (is_ext_type_spec m q true Hx). reflexivity.
  Qed.
  Lemma ritems_sound rec q : rgood rec -> forall l vs, ritems rec q (map norm l) = Ok vs -> reads_items E m by_name q l vs.
  Proof.
    intros R. induction l as [|j l IH]; intros vs H; cbn [map ritems] in H; [assert (vs = []) by congruence; subst; constructor|].
    apply bind_Ok in H as (v & Hv & H). apply bind_Ok in H as (vs' & Hvs & H). assert (vs = v :: vs') by congruence. subst.
    constructor; [now apply R|now apply IH].
  Qed.
  Lemma rread_sound : forall n, rgood (rd n).
  Proof.
    induction n as [|n IH]; intros ext p j v H; [discriminate|]. cbn [rread] in H.
    apply bind_Ok in H as (d & Hd & H). unfold deref in Hd. destruct (afind p m) as [d'|] eqn:Hp; [|discriminate].
    assert (d' = d) by congruence. subst d'. clear Hd.
    destruct d as [b| | | |q|q|q|q|fs|fs]; try discriminate H.
    - assert (G : b <> B_bool -> match norm j with JStr t => let* v := scalar_from_text E b t in Ok (AVBase b v) | _ => Err E_expected_string end = Ok v ->
        reads E m by_name ext p j v).
      { intros Hb G. destruct (norm j) eqn:N; try discriminate. apply bind_Ok in G as (x & Hx & G). assert (v = AVBase b x) by congruence. subst.
        eapply reads_text; eauto. now apply norm_text. }
      destruct b; try (apply G; [discriminate|exact H]). destruct j; try discriminate H. cbn [norm] in H.
      assert (v = AVBase B_bool (VBool b)) by congruence. subst. now constructor.
    - assert (JN : j = JNull \/ j <> JNull) by (destruct j; auto; right; discriminate). destruct JN as [->|JN].
      + change (Ok AVNone = Ok v) in H. assert (v = AVNone) by congruence. subst. eapply reads_none; eauto.
      + assert (H' : (let* v := rd n ext q (norm j) in Ok (AVSome v)) = Ok v).
        { destruct (norm j) eqn:N; try exact H; apply (proj1 (norm_null j)) in N; contradiction. }
        apply bind_Ok in H' as (x & Hx & H'). assert (v = AVSome x) by congruence. subst. eapply reads_some; eauto.
    - eapply reads_ext; eauto.
    - destruct j as [| | | |l|l]; try discriminate H. cbn [norm] in H.
      apply bind_Ok in H as (? & _ & H). apply bind_Ok in H as (vs & Hvs & H). assert (v = AVList vs) by congruence. subst.
      eapply reads_list; eauto. eapply ritems_sound; eauto.
    - destruct j as [| | | |l|l]; try discriminate H. rewrite norm_obj in H.
      apply bind_Ok in H as (vs & Hvs & H). assert (v = AVStruct vs) by congruence. subst.
      destruct (rfields_sound _ _ _ IH _ _ Hvs) as (sel & Hs & Hf). eapply reads_struct; eauto.
    - destruct j as [| | | |l|l]; try discriminate H. cbn [norm] in H. destruct l as [|x [|y [|z l]]]; cbn [map rvariant] in H; try discriminate H.
      1: { destruct (norm x); discriminate. }
      2: { destruct (norm x); discriminate. }
      destruct (norm x) eqn:N; try discriminate H. apply norm_text in N.
      destruct (find_name s fs 0) as [[i q]|] eqn:F; [|discriminate].
      destruct (Z.ltb_spec i (2 ^ 32)); [|discriminate]. cbn [check bind] in H. apply bind_Ok in H as (w & Hw & H).
      assert (v = AVVar i w) by congruence. subst.
      pose proof (find_name_first s fs 0 i q F) as G. rewrite !Z.sub_0_r in G.
      pose proof (find_name_range _ _ _ _ _ F). pose proof (find_name_nth _ _ _ _ _ F) as Nn. rewrite Z.sub_0_r in Nn.
      eapply reads_var; eauto.
  Qed.

  (** ** Completeness *)
  Lemma by_name_nil ms sel : by_name [] ms sel -> sel = [].
  Proof. intros (g & a & H & F & _). symmetry in H. apply app_eq_nil in H as [-> ->]. now inversion F. Qed.
  Lemma by_name_cons n names ms j sel : by_name (n :: names) ms (j :: sel) -> last_value n ms = Some j /\ by_name names ms sel.
  Proof.
    intros (g & a & H & F & G). inversion F; subst. cbn [app] in H. assert (x = n /\ names = l ++ a) as [-> ->] by (split; congruence).
    split; [assumption|]. exists l, a. auto.
  Qed.
  Lemma by_name_none names ms : by_name names ms [] -> Forall (fun n => last_value n ms = None) names.
  Proof. intros (g & a & -> & F & G). inversion F; subst. exact G. Qed.
  Lemma rfields_omitted rec ms : forall fs sk, Forall (fun x => extension_type m (snd x)) fs -> Forall (fun n => last_value n ms = None) (map fst fs) ->
    rfields m rec true fs (build ms []) sk = Ok [].
  Proof.
    induction fs as [|[n q] fs IH]; intros sk H1 H2; [reflexivity|]. cbn [map fst] in H2. inversion H1; inversion H2; subst. cbn [rfields].
    rewrite ofind_build. cbn [ofind snd] in *. replace (last_value n ms) with (@None jv) by (symmetry; assumption).
    rewrite is_ext_true by assumption. cbn [bind andb check]. auto.
  Qed.
  Lemma rread_complete : (forall ext p j v, reads E m by_name ext p j v -> forall n c, arrays_ok j -> chain_ok m c p -> (c <= 3)%nat -> (4 * height j + c <= n)%nat ->
        rd n ext p (norm j) = Ok v) /\
    (forall q js l, reads_items E m by_name q js l -> forall n, Forall arrays_ok js -> Forall (fun j => (4 * height j + 3 <= n)%nat) js ->
       ritems (rd n) q (map norm js) = Ok l) /\
    (forall ext fs sel l, reads_fields E m by_name ext fs sel l -> forall n ms, Forall (fun x => arrays_ok (snd x)) ms -> Forall (fun j => (4 * height (snd j) + 3 <= n)%nat) ms ->
       by_name (map fst fs) ms sel -> rfields m (rd n) ext fs (build ms []) false = Ok l).
  Proof.
    apply reads_mutind.
    - intros ext p x Hp n c A C Lc Hn. destruct n as [|n]; [cbn in Hn; lia|]. cbn [rread]. unfold deref. rewrite Hp. reflexivity.
    - intros ext p b j t v Hp Hb Ht Hv n c A C Lc Hn. destruct n as [|n]; [pose proof (height_pos j); lia|]. cbn [rread]. unfold deref. rewrite Hp. cbn [bind].
      apply norm_text in Ht. rewrite Ht, Hv. destruct b; try reflexivity. congruence.
    - intros ext p q Hp n c A C Lc Hn. destruct n as [|n]; [cbn in Hn; lia|]. cbn [rread]. unfold deref. rewrite Hp. reflexivity.
    - intros ext p q j v Hp Hj _ IH n c A C Lc Hn. destruct n as [|n]; [pose proof (height_pos j); lia|]. destruct c as [|c]; [destruct C|].
      cbn [chain_ok] in C. rewrite Hp in C. cbn [rread]. unfold deref. rewrite Hp. cbn [bind].
      assert (norm j <> JNull) by (intros X; apply (proj1 (norm_null j)) in X; contradiction).
      rewrite (IH n c A C) by lia. destruct (norm j); try reflexivity; congruence.
    - intros ext p q j v Hp _ IH n c A C Lc Hn. destruct n as [|n]; [pose proof (height_pos j); lia|]. destruct c as [|c]; [destruct C|].
      cbn [chain_ok] in C. rewrite Hp in C. cbn [rread]. unfold deref. rewrite Hp. cbn [bind]. apply (IH n c A C); lia.
    - intros ext p q js l Hp _ IH n c A C Lc Hn. destruct n as [|n]; [cbn in Hn; lia|]. destruct c as [|c]; [destruct C|].
      cbn [rread norm]. unfold deref. rewrite Hp. cbn [bind].
      inversion A; subst. rewrite map_length. destruct (Z.ltb_spec (Z.of_nat (List.length js)) (2 ^ 32)); [|lia]. cbn [check bind].
      rewrite IH; [reflexivity|assumption|].
      assert (G : Forall (fun j => (height j <= height (JArr js) - 1)%nat) js) by (apply height_arr; pose proof (height_pos (JArr js)); lia).
      rewrite Forall_forall in *. intros y Hy. specialize (G y Hy). pose proof (height_pos (JArr js)). lia.
    - intros ext p fs ms sel l Hp HP _ IH n c A C Lc Hn. destruct n as [|n]; [cbn in Hn; lia|]. destruct c as [|c]; [destruct C|].
      cbn [rread]. rewrite norm_obj. unfold deref. rewrite Hp. cbn [bind]. inversion A; subst.
      rewrite (IH n ms); [reflexivity|assumption| |exact HP].
      assert (G : Forall (fun j => (height (snd j) <= height (JObj ms) - 1)%nat) ms) by (apply height_obj; pose proof (height_pos (JObj ms)); lia).
      rewrite Forall_forall in *. intros y Hy. specialize (G y Hy). pose proof (height_pos (JObj ms)). cbv beta in *. lia.
    - intros ext p fs i q x name j v Hp Hx Hn Hi Hf _ IH n c A C Lc Hh. destruct n as [|n]; [cbn in Hh; lia|]. destruct c as [|c]; [destruct C|].
      cbn [rread norm map]. unfold deref. rewrite Hp. cbn [bind rvariant]. apply norm_text in Hx. rewrite Hx.
      rewrite (find_name_complete name q fs i 0 Hn ltac:(lia) Hf), Z.add_0_l. destruct (Z.ltb_spec i (2 ^ 32)); [|lia]. cbn [check bind].
      inversion A; subst. repeat match goal with H : Forall _ (_ :: _) |- _ => apply Forall_cons_iff in H as [? ?] end.
      rewrite (IH n 3%nat); [reflexivity|assumption|now apply sound_chain|lia|]. cbn [height fold_right] in Hh. lia.
    - reflexivity.
    - intros q j js v l _ IH1 _ IH2 n A L. apply Forall_cons_iff in A as [A1 A2]. apply Forall_cons_iff in L as [L1 L2].
      cbn [map ritems]. rewrite (IH1 n 3%nat) by (auto; now apply sound_chain). cbn [bind]. rewrite IH2 by assumption. reflexivity.
    - intros ext n ms _ _ HP. reflexivity.
    - intros f fs F n ms _ _ HP. apply by_name_none in HP. now apply rfields_omitted.
    - intros ext name q fs j js v l _ IH1 _ IH2 n ms A L HP. cbn [map fst] in HP. apply by_name_cons in HP as [HL HP].
      cbn [rfields]. rewrite ofind_build, HL. cbn [negb check bind]. destruct (last_value_In _ _ _ HL) as [k' Hin].
      rewrite (IH1 n 3%nat); [|rewrite Forall_forall in A; apply (A _ Hin)|now apply sound_chain|lia|rewrite Forall_forall in L; apply (L _ Hin)].
      cbn [bind]. rewrite (IH2 n ms) by assumption. reflexivity.
  Qed.

  (** ** Undefined behaviour *)
  Lemma rread_safe : forall n c ext p x w, type_in m p -> chain_ok m c p -> (c <= 3)%nat -> (4 * height x + c <= n)%nat -> rd n ext p x = Undef w -> date_hazard E w.
  Proof.
    induction n as [|n IH]; intros c ext p x w (d & Hp & Na) C Lc Hn H; [pose proof (height_pos x); lia|].
    destruct c as [|c]; [destruct C|]. cbn [chain_ok] in C. cbn [rread] in H. unfold deref in H. rewrite Hp in *. cbn [bind] in H.
    assert (exists h, h = height x) as [h Hh] by eauto.
    assert (RC : forall ext q y, type_in m q -> (height y < h)%nat -> rd n ext q y = Undef w -> date_hazard E w).
    { intros ext' q y Hq Hy. apply (IH 3%nat); auto; [now apply sound_chain|lia]. }
    pose proof (sm_nodef m SM p d Hp) as Nd.
    destruct d as [b| | | |q|q|q|q|fs|fs]; try discriminate Nd; try (exfalso; eapply Na; reflexivity).
    - destruct b; try (destruct x; discriminate H); destruct x; try discriminate H;
        (apply bind_undef in H as [H|(? & _ & H)]; [|discriminate]); (eapply scalar_text_undef; [|exact H]; discriminate).
    - destruct x; try discriminate H; (apply bind_undef in H as [H|(? & _ & H)]; [|discriminate]);
        (eapply (IH c); [|exact C| | |exact H]; [eapply ptr_in; eauto; left; reflexivity|lia|lia]).
    - eapply (IH c); [|exact C| | |exact H]; [eapply ptr_in; eauto; left; reflexivity|lia|lia].
    - destruct x as [| | | |l|l]; try discriminate H. apply bind_undef in H as [H|(? & _ & H)]; [now apply check_undef in H|].
      apply bind_undef in H as [H|(? & _ & H)]; [|discriminate].
      assert (Hq : type_in m q) by (eapply ptr_in; eauto; left; reflexivity).
      assert (G : Forall (fun j => (height j < h)%nat) l).
      { assert (G : Forall (fun j => (height j <= height (JArr l) - 1)%nat) l) by (apply height_arr; pose proof (height_pos (JArr l)); lia).
        rewrite Forall_forall in *. intros y Hy. specialize (G y Hy). pose proof (height_pos (JArr l)). lia. }
      clear - RC H Hq G. induction l as [|y l IHl] in H, G |- *; [discriminate|]. cbn [ritems] in H. inversion G; subst.
      apply bind_undef in H as [H|(? & _ & H)]; [eapply RC; eauto|]. apply bind_undef in H as [H|(? & _ & H)]; [|discriminate]. eauto.
    - destruct x as [| | | |l|l]; try discriminate H. apply bind_undef in H as [H|(? & _ & H)]; [|discriminate].
      assert (Hq : Forall (fun x => type_in m (snd x)) fs) by (eapply fields_in; eauto).
      assert (G : Forall (fun j => (height (snd j) < h)%nat) l).
      { assert (G : Forall (fun j => (height (snd j) <= height (JObj l) - 1)%nat) l) by (apply height_obj; pose proof (height_pos (JObj l)); lia).
        rewrite Forall_forall in *. intros y Hy. specialize (G y Hy). pose proof (height_pos (JObj l)). cbv beta in *. lia. }
      clear - RC H Hq G. revert H. generalize false. induction Hq as [|[nm q] fs Hq _ IHf]; intros sk H; [discriminate|]. cbn [rfields snd] in *.
      destruct (ofind nm l) as [y|] eqn:Of.
      + apply bind_undef in H as [H|(? & _ & H)]; [now apply check_undef in H|].
        destruct (ofind_In _ _ _ Of) as [k' Hin]. rewrite Forall_forall in G.
        apply bind_undef in H as [H|(? & _ & H)]; [eapply RC; [| |exact H]; [exact Hq|apply (G _ Hin)]|].
        apply bind_undef in H as [H|(? & _ & H)]; [|discriminate]. eauto.
      + apply bind_undef in H as [H|(? & _ & H)]; [now apply is_ext_defined in H|].
        apply bind_undef in H as [H|(? & _ & H)]; [now apply check_undef in H|]. eauto.
    - assert (Hq : Forall (fun x => type_in m (snd x)) fs) by (eapply fields_in; eauto). unfold rvariant in H.
      destruct x as [| | | |l|l]; try discriminate H. destruct l as [|[] [|y [|z l]]]; try discriminate H.
      destruct (find_name s fs 0) as [[i q]|] eqn:F; [|discriminate].
      apply bind_undef in H as [H|(? & _ & H)]; [now apply check_undef in H|].
      apply bind_undef in H as [H|(? & _ & H)]; [|discriminate]. eapply RC; [| |exact H].
      + apply find_name_nth in F. apply nthz_In in F. rewrite Forall_forall in Hq. apply (Hq _ F).
      + rewrite Hh. cbn [height fold_right]. lia.
  Qed.
End Exact.
