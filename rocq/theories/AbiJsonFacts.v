(** * Running the ordered JSON -> binary machine (proofs only)

    [jread] is a recursive reformulation of the machine on documents instead of tokens. *)
From Verif Require Import Base Stream StreamFacts TypedBin TypedSpec Json JsonSpec Keys KeysFacts Abi AbiScalar AbiScalarFacts AbiValue AbiRead Machine AbiBin AbiBinFacts AbiBinSound AbiJson.

(** ** Bytes without the array sizes, and where the sizes belong *)
Fixpoint raw (v : aval) : bytes :=
  match v with
  | AVBase b x => scalar_bytes b x
  | AVNone => [0]
  | AVSome v => 1 :: raw v
  | AVList l => concat (map raw l)
  | AVStruct l => concat (map raw l)
  | AVVar i v => encv i ++ raw v
  end.
Fixpoint marks (v : aval) (base : nat) : list (nat * Z) :=
  let go := fix go (l : list aval) (base : nat) :=
    match l with [] => [] | x :: l' => marks x base ++ go l' (base + List.length (raw x))%nat end in
  match v with
  | AVBase _ _ | AVNone => []
  | AVSome v => marks v (S base)
  | AVList l => (base, Z.of_nat (List.length l)) :: go l base
  | AVStruct l => go l base
  | AVVar i v => marks v (base + List.length (encv i))%nat
  end.
Fixpoint marks_list (l : list aval) (base : nat) : list (nat * Z) :=
  match l with [] => [] | x :: l' => marks x base ++ marks_list l' (base + List.length (raw x))%nat end.
Lemma marks_AVList l base : marks (AVList l) base = (base, Z.of_nat (List.length l)) :: marks_list l base.
Proof. reflexivity. Qed.
Lemma marks_AVStruct l base : marks (AVStruct l) base = marks_list l base.
Proof. reflexivity. Qed.

Section AvalInd.
  Variable P : aval -> Prop.
  Hypothesis H1 : forall b v, P (AVBase b v).
  Hypothesis H2 : P AVNone.
  Hypothesis H3 : forall v, P v -> P (AVSome v).
  Hypothesis H4 : forall l, Forall P l -> P (AVList l).
  Hypothesis H5 : forall l, Forall P l -> P (AVStruct l).
  Hypothesis H6 : forall i v, P v -> P (AVVar i v).
  Fixpoint aval_ind' (v : aval) : P v :=
    let go := fix go l := match l return Forall P l with [] => Forall_nil _ | x :: l' => Forall_cons _ (aval_ind' x) (go l') end in
    match v with
    | AVBase b x => H1 b x
    | AVNone => H2
    | AVSome v => H3 v (aval_ind' v)
    | AVList l => H4 l (go l)
    | AVStruct l => H5 l (go l)
    | AVVar i v => H6 i v (aval_ind' v)
    end.
End AvalInd.

(** All array sizes can be written. *)
Inductive sized : aval -> Prop :=
| sized_base b v : sized (AVBase b v)
| sized_none : sized AVNone
| sized_some v : sized v -> sized (AVSome v)
| sized_list l : Z.of_nat (List.length l) < 2 ^ 32 -> Forall sized l -> sized (AVList l)
| sized_struct l : Forall sized l -> sized (AVStruct l)
| sized_var i v : sized v -> sized (AVVar i v).

(** [splice] puts the sizes back. *)
Lemma skipn_exact {A} (a b : list A) : skipn (List.length a) (a ++ b) = b.
Proof. rewrite skipn_app, skipn_all, Nat.sub_diag. reflexivity. Qed.
Lemma splice_none pre b rest sizes bin :
  (forall p n, In (p, n) sizes -> (List.length pre + List.length b <= p)%nat) ->
  splice (pre ++ b ++ rest) (List.length pre) sizes bin = splice ((pre ++ b) ++ rest) (List.length (pre ++ b)) sizes (bin ++ b).
Proof.
  intros H. destruct sizes as [|[p n] sizes]; cbn [splice]; rewrite !skipn_exact.
  - now rewrite app_assoc.
  - specialize (H p n (or_introl eq_refl)). rewrite firstn_app, (firstn_all2 b) by lia. rewrite <- (app_assoc pre), app_length.
    replace (p - List.length pre - List.length b)%nat with (p - (List.length pre + List.length b))%nat by lia. now rewrite (app_assoc bin).
Qed.
Lemma splice_cons pre rest n sizes bin : 0 <= n < 2 ^ 32 ->
  splice (pre ++ rest) (List.length pre) ((List.length pre, n) :: sizes) bin = splice (pre ++ rest) (List.length pre) sizes (bin ++ encv n).
Proof.
  intros Hn. cbn [splice]. rewrite Nat.sub_diag. cbn [firstn]. rewrite app_nil_r, vu_append by exact Hn. reflexivity.
Qed.
Definition beyond (n : nat) (sizes : list (nat * Z)) : Prop := forall p x, In (p, x) sizes -> (n <= p)%nat.
Lemma beyond_app n a b : beyond n (a ++ b) <-> beyond n a /\ beyond n b.
Proof.
  unfold beyond. split.
  - intros H. split; intros p x Hx; apply (H p x); apply in_or_app; auto.
  - intros [H1 H2] p x Hx. apply in_app_or in Hx as [Hx|Hx]; eauto.
Qed.
Lemma beyond_le a b l : (a <= b)%nat -> beyond b l -> beyond a l.
Proof. intros H1 H2 p x Hx. specialize (H2 p x Hx). lia. Qed.
Lemma marks_beyond v : forall base, beyond base (marks v base).
Proof.
  induction v as [b x| |v IH|l IH|l IH|i v IH] using aval_ind'; intros base.
  - intros p n [].
  - intros p n [].
  - eapply beyond_le; [|apply (IH (S base))]. lia.
  - rewrite marks_AVList. assert (B : forall base, beyond base (marks_list l base)).
    { induction IH as [|v l Hv _ IHl]; intros b0; cbn [marks_list]; [intros p n []|]. apply beyond_app. split; [apply Hv|].
      eapply beyond_le; [|apply IHl]. lia. }
    intros p n [Hp|Hp]; [assert (p = base) by congruence; lia|eapply B; eauto].
  - rewrite marks_AVStruct. revert base. induction IH as [|v l Hv _ IHl]; intros b0; cbn [marks_list]; [intros p n []|]. apply beyond_app. split; [apply Hv|].
      eapply beyond_le; [|apply IHl]. lia.
  - cbn [marks]. eapply beyond_le; [|apply IH]. lia.
Qed.
Lemma splice_value : forall v, sized v -> forall pre rest more bin, beyond (List.length pre + List.length (raw v)) more ->
  splice (pre ++ raw v ++ rest) (List.length pre) (marks v (List.length pre) ++ more) bin =
  splice ((pre ++ raw v) ++ rest) (List.length (pre ++ raw v)) more (bin ++ enc v).
Proof.
  assert (L : forall l, Forall (fun v => sized v -> forall pre rest more bin, beyond (List.length pre + List.length (raw v)) more ->
      splice (pre ++ raw v ++ rest) (List.length pre) (marks v (List.length pre) ++ more) bin =
      splice ((pre ++ raw v) ++ rest) (List.length (pre ++ raw v)) more (bin ++ enc v)) l -> Forall sized l ->
    forall pre rest more bin, beyond (List.length pre + List.length (concat (map raw l))) more ->
      splice (pre ++ concat (map raw l) ++ rest) (List.length pre) (marks_list l (List.length pre) ++ more) bin =
      splice ((pre ++ concat (map raw l)) ++ rest) (List.length (pre ++ concat (map raw l))) more (bin ++ concat (map enc l))).
  { induction l as [|v l IH]; intros F S pre rest more bin B.
    - cbn [map concat marks_list app]. now rewrite !app_nil_r.
    - apply Forall_cons_iff in F as [Fv Fl]. apply Forall_cons_iff in S as [Sv Sl]. cbn [map concat marks_list] in *. rewrite app_length in B.
      rewrite <- (app_assoc (marks v _)). rewrite <- (app_assoc (raw v)). rewrite (Fv Sv pre).
      + rewrite <- app_length. rewrite (IH Fl Sl (pre ++ raw v)); [|rewrite app_length; eapply beyond_le; [|exact B]; lia]. now rewrite <- !app_assoc.
      + apply beyond_app. split; [|eapply beyond_le; [|exact B]; lia].
        assert (X : forall l base, beyond base (marks_list l base)).
        { clear. induction l as [|v l IHl]; intros b0; cbn [marks_list]; [intros p n []|]. apply beyond_app. split; [apply marks_beyond|].
          eapply beyond_le; [|apply IHl]. lia. }
        apply X. }
  induction v as [b x| |v IH|l IH|l IH|i v IH] using aval_ind'; intros S pre rest more bin B; inversion S; subst.
  - cbn [marks app raw enc]. apply splice_none. exact B.
  - apply (splice_none pre [0] rest more bin). exact B.
  - cbn [marks raw enc List.length] in *. 
    assert (X : splice (pre ++ [1] ++ raw v ++ rest) (List.length pre) (marks v (List.length (pre ++ [1])) ++ more) bin =
      splice (((pre ++ [1]) ++ raw v) ++ rest) (List.length ((pre ++ [1]) ++ raw v)) more (bin ++ 1 :: enc v)).
    { rewrite splice_none.
      - rewrite (IH H0 (pre ++ [1])); [|eapply beyond_le; [|exact B]; rewrite app_length; cbn; lia]. now rewrite <- (app_assoc bin).
      - rewrite <- app_length. apply (beyond_app (List.length (pre ++ [1]))). split; [apply marks_beyond|]. eapply beyond_le; [|exact B]. rewrite app_length. cbn [List.length]. lia. }
    rewrite app_length in X. cbn [List.length] in X. rewrite Nat.add_1_r in X. rewrite <- !app_assoc in X. rewrite <- !app_assoc. exact X.
  - rewrite marks_AVList. cbn [raw enc] in *. rewrite <- app_comm_cons. rewrite splice_cons by lia. rewrite (L l IH H1 pre rest more _ B). now rewrite <- (app_assoc bin).
  - rewrite marks_AVStruct. cbn [raw enc] in *. now apply L.
  - cbn [marks raw enc] in *. rewrite app_length in B. rewrite <- (app_assoc (encv i)). rewrite <- app_length, splice_none.
    + rewrite (IH H0 (pre ++ encv i)); [|rewrite app_length; eapply beyond_le; [|exact B]; lia]. now rewrite <- !app_assoc.
    + rewrite <- app_length. apply (beyond_app (List.length (pre ++ encv i))). split; [apply marks_beyond|]. eapply beyond_le; [|exact B]. rewrite app_length. lia.
Qed.
Lemma splice_all v bin : sized v -> splice (raw v) 0 (marks v 0) bin = Ok (bin ++ enc v).
Proof.
  intros S. pose proof (splice_value v S [] [] [] bin) as H. cbn [app List.length] in H. rewrite !app_nil_r in H. rewrite H; [|intros p n []].
  cbn [splice]. now rewrite skipn_all, app_nil_r.
Qed.

(** ** The converter on documents *)
Definition jrec := bool -> bytes -> jv -> res aval.
Section Big.
  Variables (E : float_lib) (m : amap).

  Fixpoint jfields (rec : jrec) (ext : bool) (fs : list (bytes * bytes)) (l : list (bytes * jv)) {struct l} : res (list aval) :=
    match l with
    | [] => match fs with
            | [] => Ok []
            | (_, q) :: _ => let* x := is_ext_type m q in let* _ := check (x && ext) E_expected_field in Ok []
            end
    | (key, j) :: l' =>
        match fs with
        | [] => Err E_unexpected_field
        | (name, q) :: fs' =>
            let* _ := check (beq key name) E_expected_field in
            let* v := rec (ext && is_nil fs') q j in
            let* vs := jfields rec ext fs' l' in Ok (v :: vs)
        end
    end.
  Fixpoint jitems (rec : jrec) (q : bytes) (l : list jv) (pos : Z) : res (list aval) :=
    match l with
    | [] => Ok []
    | j :: l' =>
        let* _ := if pos <? 2 ^ 31 then Ok tt else Undef "signed overflow" in
        let* v := rec false q j in
        let* vs := jitems rec q l' (pos + 1) in Ok (v :: vs)
    end.
  Definition jvariant (rec : jrec) (ext : bool) (fs : list (bytes * bytes)) (l : list jv) : res aval :=
    match l with
    | [] => Err E_expected_variant
    | x :: l' =>
        match text_of x with
        | None => Err E_expected_string
        | Some name =>
            match find_name name fs 0 with
            | None => Err E_invalid_type_for_variant
            | Some (i, q) =>
                let* _ := check (i <? 2 ^ 32) E_varuint_too_big in
                match l' with
                | [] => Err E_expected_variant
                | y :: l'' => let* v := rec ext q y in
                              match l'' with [] => Ok (AVVar i v) | _ => Err E_expected_variant end
                end
            end
        end
    end.
  Definition jcont (rec : jrec) (ext : bool) (d : adata) (j : jv) : res aval :=
    match d with
    | AStruct fs => match j with
                    | JObj l => let* vs := jfields rec ext fs l in Ok (AVStruct vs)
                    | _ => Err E_expected_start_object
                    end
    | AArray q => match j with
                  | JArr l => let* vs := jitems rec q l 0 in Ok (AVList vs)
                  | _ => Err E_expected_start_array
                  end
    | AVariant fs => match j with
                     | JArr l => jvariant rec ext fs l
                     | _ => Err E_expected_start_array
                     end
    | _ => no_serializer
    end.
  Definition jlimit : jrec := fun _ _ _ => Err E_recursion_limit_reached.
  Definition jfull (ext : bool) (d : adata) (j : jv) : res aval :=
    match d with
    | AStruct fs => match j with
                    | JObj l => let* vs := jfields jlimit ext fs l in Ok (AVStruct vs)
                    | _ => Err E_expected_start_object
                    end
    | AArray _ | AVariant _ => match j with
                  | JArr l => Err E_recursion_limit_reached
                  | _ => Err E_expected_start_array
                  end
    | _ => no_serializer
    end.
  Fixpoint jchain (cont : bool -> adata -> jv -> res aval) (c : nat) (ext : bool) (p : bytes) (j : jv) : res aval :=
    match c with
    | O => too_deep
    | S c' =>
      let* d := deref p m in
      match d with
      | ABuiltin B_bool => match j with JBool b => Ok (AVBase B_bool (VBool b)) | _ => Err E_expected_bool end
      | ABuiltin b => match text_of j with
                      | Some t => let* v := scalar_from_text E b t in Ok (AVBase b v)
                      | None => Err E_expected_string
                      end
      | AOptional q => match j with JNull => Ok AVNone | _ => let* v := jchain cont c' ext q j in Ok (AVSome v) end
      | AExtension q => jchain cont c' ext q j
      | _ => cont ext d j
      end
    end.
  Fixpoint jread (k : nat) : jrec :=
    jchain (match k with O => jfull | S k' => jcont (jread k') end) chain_budget.
  Definition jctx (k : nat) := match k with O => jfull | S k' => jcont (jread k') end.
  Lemma jread_eq k : jread k = jchain (jctx k) chain_budget.
  Proof. destruct k; reflexivity. Qed.

  (** Chains of optionals and extensions end within the budget. *)
  Fixpoint chain_ok (c : nat) (p : bytes) : Prop :=
    match c with
    | O => False
    | S c' => match afind p m with
              | Some (AOptional q) | Some (AExtension q) => chain_ok c' q
              | _ => True
              end
    end.
  Lemma sound_chain p : sound_map m -> chain_ok 3 p.
  Proof.
    intros SM. cbn [chain_ok]. destruct (afind p m) as [[]|] eqn:Hp; try exact Logic.I.
    - destruct (sm_ptr m SM p _ p0 Hp ltac:(left; reflexivity)) as (e & He & _). rewrite He.
      pose proof (sm_opt m SM p p0 e Hp He). destruct e; try discriminate; exact Logic.I.
    - destruct (sm_ptr m SM p _ p0 Hp ltac:(left; reflexivity)) as (e & He & _). rewrite He.
      pose proof (sm_ext m SM p p0 e Hp He). destruct e; try discriminate; try exact Logic.I.
      destruct (sm_ptr m SM p0 _ p1 He ltac:(left; reflexivity)) as (e & He' & _). rewrite He'.
      pose proof (sm_opt m SM p0 p1 e He He'). destruct e; try discriminate; exact Logic.I.
  Qed.

  (** ** Simulation *)
  Variable bin : bytes.
  Notation reach := (reaches (jstep E m bin)).
  Definition outcome {A} (i : res jconfig) (x : res A) (P : A -> jconfig -> Prop) : Prop :=
    match x with
    | Ok a => exists c, P a c /\ reach i (Ok c)
    | Err e => reach i (Err e)
    | Undef w => reach i (Undef w)
    end.
  Lemma outcome_from {A} i c (x : res A) P : reach i (Ok c) -> outcome (Ok c) x P -> outcome i x P.
  Proof.
    intros H. unfold outcome. destruct x as [a|e|w]; [intros (c' & Pc & R); exists c'; split; [exact Pc|]|intros R|intros R]; eapply reaches_trans; eauto.
  Qed.
  Lemma outcome_bind {A B} i (x : res A) P (f : A -> res B) Q :
    outcome i x P -> (forall a c, x = Ok a -> P a c -> outcome (Ok c) (f a) Q) -> outcome i (let* a := x in f a) Q.
  Proof.
    intros H1 H2. destruct x as [a|e|w]; cbn [bind]; [|exact H1|exact H1]. destruct H1 as (c & Pc & R).
    eapply outcome_from; [exact R|]. now apply H2.
  Qed.
  Lemma outcome_ret {A B} i (x : res A) P (f : A -> B) (Q : B -> jconfig -> Prop) :
    outcome i x P -> (forall a c, x = Ok a -> P a c -> Q (f a) c) -> outcome i (let* a := x in Ok (f a)) Q.
  Proof.
    intros H1 H2. destruct x as [a|e|w]; cbn [bind]; [|exact H1|exact H1]. destruct H1 as (c & Pc & R). exists c. auto.
  Qed.
  Lemma reach_call ext p s x : reach (jcall E m ext p s) x -> reach (Ok (JCall ext p s)) x.
  Proof. apply reaches_step. reflexivity. Qed.
  Lemma outcome_call {A} ext p s (x : res A) P : outcome (jcall E m ext p s) x P -> outcome (Ok (JCall ext p s)) x P.
  Proof.
    unfold outcome. destruct x as [a|e|w]; [intros (c' & Pc & R); exists c'; split; [exact Pc|]|intros R|intros R]; eapply reach_call; eauto.
  Qed.
  Lemma outcome_loop {A} s f rest (x : res A) P : j_stack s = f :: rest -> (List.length (f :: rest) <= max_stack_size)%nat ->
    outcome (jadvance E m f rest s) x P -> outcome (Ok (JLoop s)) x P.
  Proof.
    intros Hs Hl. assert (ST : jstep E m bin (JLoop s) = let* c' := jadvance E m f rest s in Ok (inl c')).
    { unfold jstep. rewrite Hs. destruct (Nat.leb_spec (List.length (f :: rest)) max_stack_size); [|lia]. reflexivity. }
    unfold outcome. destruct x as [a|e|w]; [intros (c' & Pc & R); exists c'; split; [exact Pc|]|intros R|intros R]; eapply reaches_step; eauto.
  Qed.
  Lemma reach_limit s f rest : j_stack s = f :: rest -> (max_stack_size < List.length (f :: rest))%nat ->
    reach (Ok (JLoop s)) (Err E_recursion_limit_reached).
  Proof.
    intros Hs Hl. apply exec_err. unfold jstep. rewrite Hs. destruct (Nat.leb_spec (List.length (f :: rest)) max_stack_size); [lia|]. reflexivity.
  Qed.

  (** Texts the scalar readers are specified for. *)
  Inductive texts_ok : jv -> Prop :=
  | to_null : texts_ok JNull
  | to_bool b : texts_ok (JBool b)
  | to_str s : text_ok s -> texts_ok (JStr s)
  | to_num s : text_ok s -> texts_ok (JNum s)
  | to_arr l : Forall texts_ok l -> texts_ok (JArr l)
  | to_obj l : Forall (fun x => texts_ok (snd x)) l -> texts_ok (JObj l).
  Hypothesis HE : float_lib_ok E.

  Lemma tokens_arr l rest : tokens (JArr l) ++ rest = TkStartArray :: concat (map tokens l) ++ TkEndArray :: rest.
  Proof. cbn [tokens]. rewrite <- app_comm_cons, <- app_assoc. reflexivity. Qed.
  Definition mtokens (l : list (bytes * jv)) : list token := concat (map (fun kv => TkKey (fst kv) :: tokens (snd kv)) l).
  Lemma tokens_obj l rest : tokens (JObj l) ++ rest = TkStartObject :: mtokens l ++ TkEndObject :: rest.
  Proof. cbn [tokens]. rewrite <- app_comm_cons, <- app_assoc. reflexivity. Qed.
  Lemma not_end_object j rest te : get_end_object_pred (JS (tokens j ++ rest) te) = Ok (false, JS (tokens j ++ rest) te).
  Proof. destruct j; reflexivity. Qed.
  Lemma not_key j rest te : maybe_get_key (JS (tokens j ++ rest) te) = Ok (None, JS (tokens j ++ rest) te).
  Proof. destruct j; reflexivity. Qed.
  Lemma not_end_array j rest te : get_end_array_pred (JS (tokens j ++ rest) te) = Ok (false, JS (tokens j ++ rest) te).
  Proof. destruct j; reflexivity. Qed.
  Definition done (out : bytes) (sizes : list (nat * Z)) (rest : list token) te stk (ext : bool) (v : aval) (c : jconfig) : Prop :=
    exists sk, (sk = true -> ext = true) /\
      c = JLoop (JSt (JS rest te) (out ++ raw v) (sizes ++ marks v (List.length out)) stk sk).
  Definition simulates (free : nat) (rec : jrec) : Prop := forall ext p j rest te out sizes stk,
    texts_ok j -> (List.length stk + free = max_stack_size)%nat ->
    outcome (Ok (JCall ext p (JSt (JS (tokens j ++ rest) te) out sizes stk false))) (rec ext p j)
      (done out sizes rest te stk ext).

  Lemma mtokens_cons k j l : mtokens ((k, j) :: l) = TkKey k :: tokens j ++ mtokens l.
  Proof. reflexivity. Qed.

  Definition fdone (out : bytes) (sizes : list (nat * Z)) (rest : list token) te stk (ext : bool) (vs : list aval) (c : jconfig) : Prop :=
    exists sk, (sk = true -> ext = true) /\
      c = JLoop (JSt (JS rest te) (out ++ concat (map raw vs)) (sizes ++ marks_list vs (List.length out)) stk sk).

  Lemma jobject_end fields p ext si va (fs : list (bytes * bytes)) (dn : list (bytes * bytes)) rest te out sizes S0 stk sk :
    fields = dn ++ fs -> (sk = true -> ext = true) ->
    outcome (jobject m fields (JF p ext (Z.of_nat (List.length dn) - 1) si va) stk (JSt (JS (TkEndObject :: rest) te) out sizes S0 sk))
      (match fs with
            | [] => Ok []
            | (_, q) :: _ => let* x := is_ext_type m q in let* _ := check (x && ext) E_expected_field in Ok []
       end) (fdone out sizes rest te stk ext).
  Proof.
    intros -> Hsk. unfold jobject. cbn [j_in get_end_object_pred peek_token toks bind jf_pos jf_ext].
    replace (Z.of_nat (List.length dn) - 1 + 1) with (Z.of_nat (List.length dn)) by lia. rewrite app_length.
    destruct fs as [|[name q] fs].
    - cbn [List.length]. destruct (Z.eqb_spec (Z.of_nat (List.length dn)) (Z.of_nat (List.length dn + 0))); [|lia].
      eexists. split; [|apply reaches_refl]. exists sk. split; [exact Hsk|]. cbn [map concat marks_list]. now rewrite !app_nil_r.
    - cbn [List.length]. destruct (Z.eqb_spec (Z.of_nat (List.length dn)) (Z.of_nat (List.length dn + S (List.length fs)))); [lia|].
      rewrite nthz_last. destruct (is_ext_type m q) as [x|e|w]; cbn [bind]; try apply reaches_refl.
      destruct x, ext; cbn [check andb bind]; try apply reaches_refl.
      eexists. split; [|apply reaches_refl]. exists true. split; [auto|]. cbn [map concat marks_list]. now rewrite !app_nil_r.
  Qed.

  Lemma sim_fields free rec p ext fields si va stk : simulates free rec -> (List.length stk + S free = max_stack_size)%nat ->
    afind p m = Some (AStruct fields) ->
    forall l fs dn rest te out sizes S0 sk, Forall (fun x => texts_ok (snd x)) l ->
    fields = dn ++ fs -> (sk = true -> ext = true /\ fs = []) ->
    outcome (jobject m fields (JF p ext (Z.of_nat (List.length dn) - 1) si va) stk (JSt (JS (mtokens l ++ TkEndObject :: rest) te) out sizes S0 sk))
      (jfields rec ext fs l) (fdone out sizes rest te stk ext).
  Proof.
    intros SR Hk Hp. induction l as [|[key j] l IH]; intros fs dn rest te out sizes S0 sk Hl Hf Hsk.
    - apply (jobject_end fields p ext si va fs dn rest te out sizes S0 stk sk Hf). intros X. now apply Hsk.
    - apply Forall_cons_iff in Hl as [Hj Hl]. cbn [snd] in Hj. rewrite mtokens_cons. cbn [app]. unfold jobject at 1.
      cbn [j_in get_end_object_pred peek_token toks bind jf_pos jf_ext maybe_get_key eat_token tl jtail j_skip jfields].
      replace (Z.of_nat (List.length dn) - 1 + 1) with (Z.of_nat (List.length dn)) by lia.
      assert (Hlen : List.length fields = (List.length dn + List.length fs)%nat) by (subst; apply app_length).
      destruct fs as [|[name q] fs'].
      { cbn [List.length] in Hlen. destruct (Z.leb_spec (Z.of_nat (List.length fields)) (Z.of_nat (List.length dn))); [|lia]. cbn [orb negb check bind]. apply reaches_refl. }
      cbn [List.length] in Hlen. destruct (Z.leb_spec (Z.of_nat (List.length fields)) (Z.of_nat (List.length dn))); [lia|].
      assert (sk = false) by (destruct sk; [destruct (Hsk eq_refl); discriminate|reflexivity]). subst sk. cbn [orb negb check bind].
      assert (Hn : nthz fields (Z.of_nat (List.length dn)) = Some (name, q)) by (subst fields; apply nthz_last). rewrite Hn.
      destruct (beq key name); cbn [check bind]; [|apply reaches_refl].
      eapply outcome_loop; [reflexivity|cbn [List.length]; lia|]. unfold jadvance. cbn [at_pos jf_type]. unfold deref. rewrite Hp. cbn [bind].
      unfold jobject at 1. cbn [set_stack set_in j_in toks jtail]. rewrite <- app_assoc.
      unfold eat_token; cbn [toks jtail tl]. rewrite not_end_object. cbn [bind]. rewrite not_key. cbn [bind jf_pos jf_ext at_pos]. rewrite Hn.
      assert (Hlast : (Z.of_nat (List.length dn) =? Z.of_nat (List.length fields) - 1) = is_nil fs').
      { destruct fs' as [|f0 fs']; cbn [List.length is_nil] in *; [destruct (Z.eqb_spec (Z.of_nat (List.length dn)) (Z.of_nat (List.length fields) - 1)); [reflexivity|lia]|].
        destruct (Z.eqb_spec (Z.of_nat (List.length dn)) (Z.of_nat (List.length fields) - 1)); [lia|reflexivity]. }
      rewrite Hlast.
      cbn [set_stack set_in j_in j_out j_sizes j_skip].
      eapply outcome_bind.
      { apply (SR (ext && is_nil fs') q j (mtokens l ++ TkEndObject :: rest) te out sizes); [exact Hj|cbn [List.length]; lia]. }
      intros v c Hrec (sk & Hsk' & ->).
      eapply outcome_loop; [reflexivity|cbn [List.length]; lia|]. unfold jadvance. cbn [at_pos jf_type]. unfold deref. rewrite Hp. cbn [bind].
      specialize (IH fs' (dn ++ [(name, q)]) rest te (out ++ raw v) (sizes ++ marks v (List.length out))
        (JF p ext (Z.of_nat (List.length dn)) si va :: stk) sk Hl).
      rewrite app_length in IH. cbn [List.length] in IH. 
      replace (Z.of_nat (List.length dn + 1) - 1) with (Z.of_nat (List.length dn)) in IH by lia.
      eapply outcome_ret.
      { apply IH; [subst fields; now rewrite <- app_assoc|]. intros X. specialize (Hsk' X). apply andb_true_iff in Hsk' as [-> Hn']. split; [reflexivity|]. destruct fs'; [reflexivity|discriminate]. }
      intros vs c Hok (sk2 & Hsk2 & ->). exists sk2. split; [exact Hsk2|]. cbn [map concat marks_list]. rewrite !app_length, <- !app_assoc. reflexivity.
  Qed.
  Lemma sim_object_full p ext fields si va stk l rest te out sizes S0 : (max_stack_size <= List.length stk)%nat ->
    outcome (jobject m fields (JF p ext (-1) si va) stk (JSt (JS (mtokens l ++ TkEndObject :: rest) te) out sizes S0 false))
      (jfields jlimit ext fields l) (fdone out sizes rest te stk ext).
  Proof.
    intros Hk. destruct l as [|[key j] l].
    - apply (jobject_end fields p ext si va fields []); [reflexivity|discriminate].
    - rewrite mtokens_cons. cbn [app]. unfold jobject.
      cbn [j_in get_end_object_pred peek_token toks bind jf_pos jf_ext maybe_get_key eat_token tl jtail j_skip jfields].
      change (-1 + 1) with 0. destruct fields as [|[name q] fields]; [apply reaches_refl|].
      destruct (Z.leb_spec (Z.of_nat (List.length ((name, q) :: fields))) 0); [cbn [List.length] in *; lia|]. cbn [orb negb check bind nthz].
      change (0 =? 0) with true. cbn [bind]. destruct (beq key name); cbn [check bind]; [|apply reaches_refl].
      unfold jlimit. cbn [bind]. eapply reach_limit; [reflexivity|]. cbn [List.length]. lia.
  Qed.

  Lemma sim_items free rec p q si va stk : simulates free rec -> (List.length stk + S free = max_stack_size)%nat ->
    afind p m = Some (AArray q) ->
    forall l pos rest te out sizes S0, Forall texts_ok l ->
    outcome (jadvance E m (JF p false (pos - 1) si va) stk (JSt (JS (concat (map tokens l) ++ TkEndArray :: rest) te) out sizes S0 false))
      (jitems rec q l pos)
      (fun vs c => List.length vs = List.length l /\
         c = JLoop (JSt (JS rest te) (out ++ concat (map raw vs))
                        (set_size (sizes ++ marks_list vs (List.length out)) si ((pos + Z.of_nat (List.length l)) mod 2 ^ 32)) stk false)).
  Proof.
    intros SR Hk Hp. induction l as [|j l IH]; intros pos rest te out sizes S0 Hl; unfold jadvance; cbn [jf_type]; unfold deref; rewrite Hp; cbn [bind map concat j_in].
    - cbn [get_end_array_pred peek_token toks bind app jitems]. eexists. split; [split; [reflexivity|reflexivity]|].
      cbn [map concat marks_list List.length]. rewrite !app_nil_r. unfold eat_token. cbn [toks jtail tl j_out j_sizes j_skip jf_size_index jf_pos].
      replace (pos - 1 + 1) with (pos + Z.of_nat 0) by lia. apply reaches_refl.
    - apply Forall_cons_iff in Hl as [Hj Hl]. rewrite <- app_assoc, not_end_array. cbn [bind jf_pos jitems].
      replace (pos - 1 + 1) with pos by lia. destruct (pos <? 2 ^ 31); cbn [bind]; [|apply reaches_refl].
      unfold at_pos, set_stack, set_in. cbn [j_in j_out j_sizes j_skip j_stack jf_type jf_ext jf_pos jf_size_index jf_variant].
      eapply outcome_bind.
      { apply (SR false q j (concat (map tokens l) ++ TkEndArray :: rest) te out sizes); [exact Hj|cbn [List.length]; lia]. }
      intros v c _ (sk & Hsk & ->). assert (sk = false) by (destruct sk; [specialize (Hsk eq_refl); discriminate|reflexivity]). subst sk.
      eapply outcome_loop; [reflexivity|cbn [List.length]; lia|].
      eapply outcome_ret.
      { replace pos with (pos + 1 - 1) at 1 by lia. apply IH. exact Hl. }
      intros vs c Hok (Hlen & ->). split; [cbn; lia|]. cbn [map concat marks_list List.length]. rewrite !app_length, <- !app_assoc.
      replace (pos + 1 + Z.of_nat (List.length l)) with (pos + Z.of_nat (S (List.length l))) by lia. reflexivity.
  Qed.
  Lemma jitems_len rec q : forall l pos vs, jitems rec q l pos = Ok vs -> 0 <= pos <= 2 ^ 31 -> pos + Z.of_nat (List.length l) <= 2 ^ 31.
  Proof.
    induction l as [|j l IH]; intros pos vs H Hp; [cbn; lia|]. cbn [jitems] in H. destruct (Z.ltb_spec pos (2 ^ 31)); [|discriminate]. cbn [bind] in H.
    apply bind_Ok in H as (v & _ & H). apply bind_Ok in H as (vs' & H & _). apply IH in H; [|lia]. cbn [List.length]. lia.
  Qed.
  Lemma set_size_here a b n l : set_size (a ++ (b, 0) :: l) (List.length a) n = a ++ (b, n) :: l.
  Proof. induction a as [|[x y] a IH]; [reflexivity|]. cbn [app List.length set_size]. now rewrite IH. Qed.

  Lemma text_token j t rest te : text_of j = Some t -> get_string (JS (tokens j ++ rest) te) = Ok (t, JS rest te).
  Proof. destruct j; try discriminate; cbn [text_of]; intros H; injection H as ->; reflexivity. Qed.
  Lemma no_text_token j rest te : text_of j = None -> get_string (JS (tokens j ++ rest) te) = Err E_expected_string.
  Proof. destruct j; try discriminate; reflexivity. Qed.
  Lemma find_name_range name fs : forall i i' q, find_name name fs i = Some (i', q) -> i <= i'.
  Proof.
    induction fs as [|[n q0] fs IH]; intros i i' q H; [discriminate|]. cbn [find_name] in H. destruct (beq n name); [assert (i = i') by congruence; lia|].
    apply IH in H. lia.
  Qed.
  Lemma find_name_nth name fs : forall i i' q, find_name name fs i = Some (i', q) -> nthz fs (i' - i) = Some (name, q).
  Proof.
    induction fs as [|[n q0] fs IH]; intros i i' q H; [discriminate|]. cbn [find_name] in H. destruct (beq n name) eqn:B.
    - assert (i = i' /\ q0 = q) as [<- <-] by (split; congruence). apply beq_eq in B. subst n. rewrite Z.sub_diag. reflexivity.
    - pose proof (find_name_range _ _ _ _ _ H) as R. apply IH in H. cbn [nthz]. destruct (Z.eqb_spec (i' - i) 0); [lia|].
      replace (i' - i - 1) with (i' - (i + 1)) by lia. exact H.
  Qed.
  Lemma vu_any n out : 0 <= n -> varuint32_to_bin vector_stream n out = let* _ := check (n <? 2 ^ 32) E_varuint_too_big in Ok (out ++ encv n).
  Proof.
    intros Hn. destruct (Z.ltb_spec n (2 ^ 32)); [rewrite vu_append by lia; reflexivity|].
    rewrite varuint32_to_bin_eq by lia. destruct (Z.ltb_spec n (2 ^ 32)); [lia|reflexivity].
  Qed.

  Lemma sim_variant free rec p fs ext stk : simulates free rec -> (List.length stk + S free = max_stack_size)%nat ->
    afind p m = Some (AVariant fs) ->
    forall l rest te out sizes, Forall texts_ok l ->
    outcome (Ok (JLoop (JSt (JS (concat (map tokens l) ++ TkEndArray :: rest) te) out sizes (JF p ext (-1) 0 0 :: stk) false)))
      (jvariant rec ext fs l) (done out sizes rest te stk ext).
  Proof.
    intros SR Hk Hp l rest te out sizes Hl.
    assert (LEN : forall f : jframe, (List.length (f :: stk) <= max_stack_size)%nat) by (intros; cbn [List.length]; lia).
    eapply outcome_loop; [reflexivity|apply LEN|]. unfold jadvance. cbn [jf_type]. unfold deref. rewrite Hp. cbn [bind jf_pos].
    change (-1 + 1) with 0. destruct l as [|x l].
    { cbn [map concat app]. apply reaches_refl. }
    apply Forall_cons_iff in Hl as [Hx Hl].
    cbn [map concat]. rewrite <- app_assoc. cbn [j_in]. rewrite not_end_array. cbn [bind]. change (0 =? 0) with true. cbn [jvariant].
    destruct (text_of x) as [name|] eqn:Tx; [|rewrite no_text_token by exact Tx; apply reaches_refl].
    rewrite (text_token x name) by exact Tx. cbn [bind]. destruct (find_name name fs 0) as [[i q]|] eqn:F; [|apply reaches_refl].
    pose proof (find_name_range _ _ _ _ _ F) as Hi. cbn [j_out]. rewrite vu_any by exact Hi.
    destruct (i <? 2 ^ 32); cbn [check bind]; [|apply reaches_refl]. cbn [j_sizes j_skip jf_ext jf_type jf_size_index].
    eapply outcome_loop; [reflexivity|apply LEN|]. unfold jadvance. cbn [jf_type]. unfold deref. rewrite Hp. cbn [bind jf_pos].
    change (0 + 1) with 1. destruct l as [|y l].
    { cbn [map concat app]. apply reaches_refl. }
    apply Forall_cons_iff in Hl as [Hy Hl].
    cbn [map concat]. rewrite <- app_assoc. cbn [j_in]. rewrite not_end_array. cbn [bind]. change (1 =? 0) with false. change (1 =? 1) with true. cbv iota.
    cbn [jf_variant]. pose proof (find_name_nth _ _ _ _ _ F) as N. rewrite Z.sub_0_r in N. rewrite N.
    unfold at_pos, set_stack, set_in. cbn [j_in j_out j_sizes j_skip j_stack jf_type jf_ext jf_pos jf_size_index jf_variant].
    eapply outcome_bind.
    { apply (SR ext q y (concat (map tokens l) ++ TkEndArray :: rest) te (out ++ encv i) sizes); [exact Hy|cbn [List.length]; lia]. }
    intros v c _ (sk & Hsk & ->).
    eapply outcome_loop; [reflexivity|apply LEN|]. unfold jadvance. cbn [jf_type]. unfold deref. rewrite Hp. cbn [bind jf_pos j_in].
    change (1 + 1) with 2. destruct l as [|z l].
    - cbn [map concat app get_end_array_pred peek_token toks bind]. change (2 =? 2) with true. cbn [check bind].
      eexists. split; [|apply reaches_refl]. exists sk. split; [exact Hsk|]. unfold set_stack, set_in, eat_token.
      cbn [j_in j_out j_sizes j_skip j_stack toks jtail tl raw marks]. now rewrite app_length, <- app_assoc.
    - cbn [map concat]. rewrite <- app_assoc, not_end_array. cbn [bind]. change (2 =? 0) with false. change (2 =? 1) with false. apply reaches_refl.
  Qed.

  Lemma sim_cont free rec p d ext stk : simulates free rec -> (List.length stk + S free = max_stack_size)%nat ->
    afind p m = Some d -> container d = true ->
    forall j rest te out sizes, texts_ok j ->
    outcome (jcall E m ext p (JSt (JS (tokens j ++ rest) te) out sizes stk false)) (jcont rec ext d j) (done out sizes rest te stk ext).
  Proof.
    intros SR Hk Hp Hd j rest te out sizes Hj. unfold jcall, deref. rewrite Hp. cbn [bind]. destruct d; try discriminate; cbn [jcont].
    - (* array *) destruct j; try apply reaches_refl. rewrite ?tokens_arr, ?tokens_obj. inversion Hj; subst.
      cbn [j_in get_start_array peek_token toks bind j_out j_sizes j_skip j_stack]. unfold eat_token. cbn [toks jtail tl].
      eapply outcome_loop; [reflexivity|cbn [List.length]; lia|].
      eapply outcome_ret.
      { apply (sim_items free rec p p0 (List.length sizes) 0 stk SR Hk Hp l 0). assumption. }
      intros vs c Hok (Hlen & ->). exists false. split; [discriminate|]. cbn [raw]. rewrite marks_AVList.
      rewrite <- app_assoc. cbn [app]. rewrite set_size_here, Hlen, Z.mod_small; [reflexivity|].
      apply jitems_len in Hok; lia.
    - (* struct *) destruct j; try apply reaches_refl. rewrite ?tokens_arr, ?tokens_obj. inversion Hj; subst.
      cbn [j_in get_start_object peek_token toks bind j_out j_sizes j_skip j_stack]. unfold eat_token, set_in. cbn [toks jtail tl j_out j_sizes j_skip j_stack].
      eapply outcome_ret.
      { apply (sim_fields free rec p ext fields 0 0 stk SR Hk Hp l fields []); [assumption|reflexivity|discriminate]. }
      intros vs c Hok (sk & Hsk & ->). exists sk. split; [exact Hsk|]. reflexivity.
    - destruct j; try apply reaches_refl. rewrite ?tokens_arr, ?tokens_obj. inversion Hj; subst.
      cbn [j_in get_start_array peek_token toks bind j_out j_sizes j_skip j_stack]. unfold eat_token, set_in, set_stack. cbn [toks jtail tl j_in j_out j_sizes j_skip j_stack].
      apply (sim_variant free rec p fields ext stk SR Hk Hp); assumption.
  Qed.
  Lemma sim_full p d ext stk : (max_stack_size <= List.length stk)%nat ->
    afind p m = Some d -> container d = true ->
    forall j rest te out sizes,
    outcome (jcall E m ext p (JSt (JS (tokens j ++ rest) te) out sizes stk false)) (jfull ext d j) (done out sizes rest te stk ext).
  Proof.
    intros Hk Hp Hd j rest te out sizes. unfold jcall, deref. rewrite Hp. cbn [bind]. destruct d; try discriminate; cbn [jfull].
    - destruct j; try apply reaches_refl. cbn [tokens app j_in get_start_array peek_token toks bind j_out j_sizes j_skip j_stack].
      eapply reach_limit; [reflexivity|cbn [List.length]; lia].
    - destruct j; try apply reaches_refl. rewrite ?tokens_arr, ?tokens_obj.
      cbn [j_in get_start_object peek_token toks bind j_out j_sizes j_skip j_stack]. unfold eat_token, set_in. cbn [toks jtail tl j_out j_sizes j_skip j_stack].
      eapply outcome_ret.
      { apply (sim_object_full p ext fields 0 0 stk l). exact Hk. }
      intros vs c _ (sk & Hsk & ->). exists sk. split; [exact Hsk|]. reflexivity.
    - destruct j; try apply reaches_refl. cbn [tokens app j_in get_start_array peek_token toks bind j_out j_sizes j_skip j_stack].
      eapply reach_limit; [reflexivity|cbn [List.length]; lia].
  Qed.

  Lemma sim_chain k cont : match k with O => cont = jfull | S k' => exists rec, simulates k' rec /\ cont = jcont rec end ->
    forall c ext p j rest te out sizes stk, chain_ok c p -> texts_ok j -> (List.length stk + k = max_stack_size)%nat ->
    outcome (Ok (JCall ext p (JSt (JS (tokens j ++ rest) te) out sizes stk false))) (jchain cont c ext p j) (done out sizes rest te stk ext).
  Proof.
    intros HC. induction c as [|c IH]; intros ext p j rest te out sizes stk Hc Hj Hk; [destruct Hc|].
    assert (G : forall d, afind p m = Some d -> container d = true ->
      outcome (jcall E m ext p (JSt (JS (tokens j ++ rest) te) out sizes stk false)) (cont ext d j) (done out sizes rest te stk ext)).
    { intros d Hp Hd. destruct k as [|k].
      - subst cont. apply sim_full; auto; lia.
      - destruct HC as (rec & HR & ->). eapply sim_cont; eauto. }
    assert (NS : forall d, match d with AAliasDef _ | AStructDef _ | AVariantDef _ | AAlias _ => cont ext d j = no_serializer | _ => True end).
    { intros d. destruct k as [|k]; [subst cont; destruct d; try exact Logic.I; reflexivity|destruct HC as (rec & HR & ->); destruct d; try exact Logic.I; reflexivity]. }
    apply outcome_call. cbn [chain_ok] in Hc. cbn [jchain]. unfold deref. destruct (afind p m) as [d|] eqn:Hp; cbn [bind];
      [|unfold jcall, deref; rewrite Hp; apply reaches_refl].
    specialize (NS d).
    destruct d; try (apply (G _ eq_refl eq_refl)); try (rewrite NS; unfold jcall, deref; rewrite Hp; apply reaches_refl); clear NS G.
    - (* built-in *) destruct b;
      [ (* bool *) unfold jcall, deref; rewrite Hp; cbn [bind]; destruct j; try apply reaches_refl;
        cbn [tokens app j_in get_bool peek_token toks bind j_out]; unfold eat_token, set_out, set_in; cbn [toks jtail tl j_in j_out j_sizes j_skip j_stack];
        destruct b; (eexists; split; [|apply reaches_refl]); exists false; (split; [discriminate|]); cbn [raw marks]; rewrite app_nil_r; reflexivity
      | .. ];
      match goal with |- context [scalar_from_text E ?bb _] => 
        assert (JC : jcall E m ext p (JSt (JS (tokens j ++ rest) te) out sizes stk false) =
          let* (t, i) := get_string (JS (tokens j ++ rest) te) in let* o := scalar_write E bb t out in Ok (JLoop (JSt i o sizes stk false)))
        by (unfold jcall, deref; rewrite Hp; reflexivity)
      end; rewrite JC; clear JC;
      (destruct (text_of j) as [t|] eqn:Tj; [|rewrite no_text_token by exact Tj; apply reaches_refl]);
      rewrite (text_token j t) by exact Tj; cbn [bind];
      (assert (Ht : text_ok t) by (destruct j; try discriminate; inversion Hj; subst; cbn [text_of] in Tj; congruence));
      rewrite scalar_write_spec by assumption;
      match goal with |- context [scalar_from_text E ?bb t] => destruct (scalar_from_text E bb t) as [v|e|w]; cbn [bind]; try apply reaches_refl end;
      (eexists; split; [|apply reaches_refl]); exists false; (split; [discriminate|]); cbn [raw marks]; rewrite app_nil_r; reflexivity.
    - (* optional *) unfold jcall, deref. rewrite Hp. cbn [bind].
      assert (JN : j = JNull \/ j <> JNull) by (destruct j; auto; right; discriminate). destruct JN as [->|JN].
      + cbn [tokens app j_in get_null_pred peek_token toks bind]. unfold eat_token, set_out, set_in. cbn [toks jtail tl j_in j_out j_sizes j_skip j_stack].
        eexists. split; [|apply reaches_refl]. exists false. split; [discriminate|]. cbn [raw marks]. now rewrite app_nil_r.
      + assert (X : get_null_pred (JS (tokens j ++ rest) te) = Ok (false, JS (tokens j ++ rest) te)) by (destruct j; try reflexivity; congruence).
        cbn [j_in]. rewrite X. cbn [bind]. unfold set_out, set_in. cbn [j_in j_out j_sizes j_skip j_stack].
        assert (Y : match j with JNull => Ok AVNone | _ => let* v := jchain cont c ext p0 j in Ok (AVSome v) end = let* v := jchain cont c ext p0 j in Ok (AVSome v))
          by (destruct j; try reflexivity; congruence).
        rewrite Y. eapply outcome_ret; [apply IH; assumption|]. intros v c0 _ (sk & Hsk & ->). exists sk. split; [exact Hsk|].
        cbn [raw marks]. rewrite app_length, <- app_assoc. cbn [List.length app]. now rewrite Nat.add_1_r.
    - unfold jcall, deref. rewrite Hp. cbn [bind]. eapply outcome_from; [apply reaches_refl|]. now apply IH.
  Qed.
  Hypothesis CK : forall p, chain_ok 3 p.
  Lemma chain_ok_S : forall c p, chain_ok c p -> chain_ok (S c) p.
  Proof.
    induction c as [|c IH]; intros p H; [destruct H|]. change (chain_ok (S (S c)) p) with
      (match afind p m with Some (AOptional q) | Some (AExtension q) => chain_ok (S c) q | _ => True end).
    cbn [chain_ok] in H. destruct (afind p m) as [[]|]; auto.
  Qed.
  Lemma sim_val k : simulates k (jread k).
  Proof.
    induction k as [|k IH]; rewrite jread_eq; intros ext p j rest te out sizes stk Hj Hk.
    - apply (sim_chain 0); auto. apply chain_ok_S, CK.
    - apply (sim_chain (S k)); cbn [jctx]; eauto. apply chain_ok_S, CK.
  Qed.
End Big.

Lemma jread_sized E m : forall k ext p j v, jread E m k ext p j = Ok v -> sized v.
Proof.
  assert (F : forall rec, (forall ext p j v, rec ext p j = Ok v -> sized v) -> forall l ext fs vs, jfields m rec ext fs l = Ok vs -> Forall sized vs).
  { intros rec HR. induction l as [|[key j] l IH]; intros ext fs vs H; cbn [jfields] in H.
    - destruct fs as [|[n q] fs]; [assert (vs = []) by congruence; subst; constructor|].
      apply bind_Ok in H as (x & _ & H). apply bind_Ok in H as (y & _ & H). assert (vs = []) by congruence. subst. constructor.
    - destruct fs as [|[n q] fs]; [discriminate|]. apply bind_Ok in H as (x & _ & H). apply bind_Ok in H as (v & Hv & H). apply bind_Ok in H as (l' & Hl & H).
      assert (vs = v :: l') by congruence. subst. constructor; eauto. }
  assert (I : forall rec, (forall ext p j v, rec ext p j = Ok v -> sized v) -> forall q l pos vs, jitems rec q l pos = Ok vs -> Forall sized vs /\ List.length vs = List.length l).
  { intros rec HR q. induction l as [|j l IH]; intros pos vs H; cbn [jitems] in H.
    - assert (vs = []) by congruence. subst. split; [constructor|reflexivity].
    - apply bind_Ok in H as (x & _ & H). apply bind_Ok in H as (v & Hv & H). apply bind_Ok in H as (l' & Hl & H).
      assert (vs = v :: l') by congruence. subst. apply IH in Hl as [L1 L2]. split; [constructor; eauto|cbn; lia]. }
  assert (C : forall k c, (forall ext d j v, jctx E m k ext d j = Ok v -> sized v) -> forall ext p j v, jchain E m (jctx E m k) c ext p j = Ok v -> sized v).
  { intros k c HC. induction c as [|c IH]; intros ext p j v H; [discriminate|]. cbn [jchain] in H. apply bind_Ok in H as (d & _ & H).
    destruct d; eauto.
    - destruct b;
      [ destruct j; try discriminate; assert (v = AVBase B_bool (VBool b)) by congruence; subst; constructor | ..];
      (destruct (text_of j); [|discriminate]); apply bind_Ok in H as (x & _ & H); match type of H with Ok ?z = Ok v => assert (v = z) by congruence end; subst; constructor.
    - destruct j; try (apply bind_Ok in H as (x & Hx & H); assert (v = AVSome x) by congruence; subst; constructor; eauto).
      assert (v = AVNone) by congruence. subst. constructor. }
  induction k as [|k IH]; intros ext p j v H; rewrite jread_eq in H; eapply C; eauto; clear ext p j v H; intros ext d j v H; cbn [jctx jfull jcont] in H; destruct d; try discriminate;
    destruct j; try discriminate.
  - apply bind_Ok in H as (vs & Hv & H). assert (v = AVStruct vs) by congruence. subst. constructor. eapply (F jlimit); [|exact Hv]. discriminate.
  - apply bind_Ok in H as (vs & Hv & H). assert (v = AVList vs) by congruence. subst. pose proof (jitems_len _ _ _ _ _ Hv ltac:(lia)) as L. apply I in Hv as [H1 H2]; [|exact IH].
    constructor; [lia|exact H1].
  - apply bind_Ok in H as (vs & Hv & H). assert (v = AVStruct vs) by congruence. subst. constructor. eapply F; [|exact Hv]. exact IH.
  - destruct l as [|x l]; [discriminate|]. cbn [jcont jvariant] in H. destruct (text_of x) as [name|]; [|discriminate]. destruct (find_name name fields 0) as [[i q]|]; [|discriminate].
    apply bind_Ok in H as (u & _ & H). destruct l as [|y l]; [discriminate|]. apply bind_Ok in H as (w & Hw & H). destruct l; [|discriminate].
    assert (v = AVVar i w) by congruence. subst. constructor. eauto.
Qed.

(** The machine on a complete document. *)
Theorem json_to_bin_run E m p j text bin : float_lib_ok E -> sound_map m -> texts_ok j -> tokenize text = (tokens j, None) ->
  json_to_bin E m p text bin (let* v := jread E m 128 true p j in Ok (bin ++ enc v)).
Proof.
  intros HE SM Hj Ht. unfold json_to_bin, open_json. rewrite Ht.
  pose proof (sim_val E m bin HE (fun p => sound_chain m p SM) 128 true p j [] None [] [] [] Hj eq_refl) as S. rewrite app_nil_r in S.
  destruct (jread E m 128 true p j) as [v|e|w] eqn:J; cbn [bind]; [|exact S|exact S].
  destruct S as (c & (sk & _ & ->) & R). cbn [app List.length] in R. eapply star_exec; [exact R|]. apply exec_done.
  cbn [jstep j_stack j_in j_out j_sizes]. change (at_end (JS [] None)) with true. cbn [check bind].
  rewrite splice_all; [reflexivity|]. eapply jread_sized; eauto.
Qed.

