(** * C62: what a failing add_type leaves behind

    Vocabulary: [add_run t m] (AddType.v): the table after abi::add_type and its result; [table m],
    [addable], [coherent], [abi_name], [shape], [parts], [well_nested], [remains] (AddTypeSpec.v): the type tables of a
    program (also after failed calls), the types for which add_type compiles, no two descriptions under
    one name, the ABI name and description of a type, the types in it, no forbidden nesting, its
    description without the fields from the first badly nested one on. *)
From Verif Require Import Base Stream StreamFacts TypedBin TypedSpec TypedBinFacts Asset Utf8 Json JsonSpec JsonFacts JsonPrint Prop_Json Abi AbiSpec AbiFacts AbiLoad Prop_Abi
  AbiScalar AbiScalarFacts AbiValue Machine AbiBin AbiBinFacts AbiBinSound AbiBinSafe AbiDoc AbiUse Prop_AbiBin
  TypedJson TypedJsonSpec TypedJsonFacts AddType AddTypeSpec AddTypeFacts AddTypeRun AddTypeValue Prop_AddType.

(** The call of C49. *)
Theorem C62_same_call t m :
  add_type t m = match add_run t m with (m', Ok p) => Ok (p, m') | (_, Err e) => Err e | (_, Undef w) => Undef w end.
Proof. rewrite run_outcome. destruct (add_run t m) as [m' [p|e|w]]; reflexivity. Qed.
Print Assumptions C62_same_call.

(** It fails exactly on forbidden nestings. In any case the old entries are as before; the new ones belong to types in
    [t] and are complete, except that, when it failed, badly nested structs lack the fields from the first badly nested one on. *)
Theorem C62_basic m t m' r :
  table m -> addable t = true -> coherent m t -> add_run t m = (m', r) ->
  table m' /\
  r = (if well_nested t then Ok (abi_name t) else Err E_invalid_nesting) /\
  (forall k d, afind k m = Some d -> afind k m' = Some d) /\
  (forall k d, afind k m = None -> afind k m' = Some d ->
     exists u, In u (parts t) /\ k = abi_name u /\ d = remains u /\
       (well_nested u = true /\ d = shape u \/ well_nested u = false /\ exists n fs, u = JStruct n fs)).
Proof.
  intros T A C H. destruct (table_sound m T) as [S Sc]. pose proof (coherent_compatible m t C) as Cm. pose proof (add_run_good t m S Sc A Cm) as G. rewrite H in G. cbn [rgood] in G.
  destruct G as (I & [M _] & R & F). destruct F as [N W].
  { intros u d Hu _ Hd. destruct C as [_ C]. eauto. }
  split; [exact (table_add m t m' r T A Cm H)|]. split; [|split; [exact M|]].
  - destruct r as [p|e|w]; [|destruct R as [-> ->]; reflexivity|contradiction]. rewrite (W eq_refl). destruct R as [-> _]. reflexivity.
  - intros k d Hk Hd. destruct (N k d Hk Hd) as (u & Hu & En & Ed & D). exists u. split; [exact Hu|]. split; [exact En|]. split; [exact Ed|].
    destruct (well_nested u) eqn:Wu; [left; split; [reflexivity|]; rewrite Ed; now apply remains_whole|right]. split; [reflexivity|]. destruct D as [D|D]; [discriminate|exact D].
Qed.
Print Assumptions C62_basic.

(** After any history of lookups and additions, failed or not, everything a type refers to is in the table, and no
    reference is to an alias, to a forbidden nesting or to a raw definition. *)
Theorem C62_references m :
  table m -> forall k d, afind k m = Some d -> is_def d = false /\
  (forall q, In q (pointers d) -> exists e, afind q m = Some e /\ forall x, e <> AAlias x) /\
  match d with
  | AOptional q | AArray q => forall e, afind q m = Some e -> is_optional_array_extension e = false
  | AExtension q => forall e, afind q m = Some e -> is_extension e = false
  | _ => True
  end.
Proof. intros T k d H. destruct (table_sound m T) as [S _]. apply (proj1 (sound_entries m) S k d H). Qed.
Print Assumptions C62_references.

(** A struct which is not in the table and whose derivation fails: the same call made again succeeds. It
    finds the struct which the first call left, with fewer fields than the type has, and leaves it so. *)
Theorem C62_retry_refuted m n fs m' r :
  table m -> addable (JStruct n fs) = true -> coherent m (JStruct n fs) -> well_nested (JStruct n fs) = false -> afind n m = None ->
  add_run (JStruct n fs) m = (m', r) ->
  exists fields, afind n m' = Some (AStruct fields) /\ (List.length fields < List.length fs)%nat /\
    fields = firstn (List.length fields) (map (fun f => (fst f, abi_name (snd f))) fs) /\
    r = Err E_invalid_nesting /\ add_run (JStruct n fs) m' = (m', Ok n).
Proof.
  intros T A C W Fn H. destruct (C62_basic m _ m' r T A C H) as (_ & Er & Old & New). rewrite W in Er.
  assert (Pr : exists d, afind n m' = Some d).
  { cbn [add_run] in H. unfold try_emplace in H. rewrite Fn in H. cbv iota in H.
    match type of H with ?g fs _ = _ => set (go := g) in H end.
    assert (L : forall l m1, afind n m1 <> None -> (forall t, In t (map snd l) -> forall x, afind n x <> None -> afind n (fst (add_run t x)) <> None) -> afind n (fst (go l m1)) <> None).
    { induction l as [|f l IH]; intros m1 H1 Hl; [exact H1|]. cbn [go]. fold go. pose proof (Hl (snd f) (or_introl eq_refl) m1 H1) as X.
      destruct (add_run (snd f) m1) as [m2 [p|e|w]]; cbn [fst run_then] in *; [|exact X|exact X]. unfold push_field. destruct (afind n m2) as [d|] eqn:E; [|contradiction].
      destruct d; cbn [fst]; try congruence. apply IH; [|intros t Ht; apply Hl; now right]. rewrite afind_aset, E, beq_refl. discriminate. }
    pose proof (L fs (ainsert n (AStruct []) m)) as X. rewrite H in X. cbn [fst] in X. destruct (afind n m') as [d|] eqn:E; [eauto|]. exfalso. apply X; [|
      |reflexivity].
    - rewrite (afind_ainsert n (AStruct []) m n Fn), beq_refl. discriminate.
    - intros t _ x Hx. clear -Hx. revert x Hx.
      assert (Em : forall k d x, afind n x <> None -> afind n (fst (try_emplace k d x)) <> None).
      { intros k d x Hx E. destruct (afind n x) as [e|] eqn:K; [|contradiction]. pose proof (emplace_mono k d x n e K). congruence. }
      assert (Wr : forall c kind k d e x, (forall x, afind n x <> None -> afind n (fst (add_run c x)) <> None) -> afind n x <> None ->
        afind n (fst (run_then (add_run c x) (fun p m => add_wrapper kind (k p) (d p) (e p) m))) <> None).
      { intros c kind k d e x Hc Hx. specialize (Hc x Hx). destruct (add_run c x) as [m2 [p|y|w]]; cbn [fst run_then] in *; [|exact Hc|exact Hc]. unfold add_wrapper.
        destruct (bind _ _); cbn [fst]; [now apply Em|exact Hc|exact Hc]. }
      induction t as [b|t IH|t IH|tys IH|nm fs IH|a b IHa IHb|t IH| |t IH|names|k] using jty_ind'; intros x Hx; try exact Hx.
      + cbn [add_run]. destruct (scalar_compiles b); exact Hx.
      + exact (Wr t _ (fun _ => _) _ (fun e => e) x IH Hx).
      + exact (Wr t _ (fun _ => _) _ (fun e => e) x IH Hx).
      + cbn [add_run]. match goal with |- context [run_then (?g tys x) _] => set (go := g) end.
        assert (L : forall ts, (forall t, In t ts -> In t tys) -> forall x, afind n x <> None -> afind n (fst (go ts x)) <> None).
        { induction ts as [|t ts IHt]; intros Hs y Hy; [exact Hy|]. cbn [go]. fold go. rewrite Forall_forall in IH. pose proof (IH t (Hs t (or_introl eq_refl)) y Hy) as X.
          destruct (add_run t y) as [m2 [p|e|w]]; cbn [fst run_then] in *; [|exact X|exact X]. specialize (IHt (fun t H => Hs t (or_intror H)) m2 X).
          destruct (go ts m2) as [m3 [ps|e|w]]; cbn [fst run_then] in *; exact IHt. }
        specialize (L tys (fun t H => H) x Hx). destruct (go tys x) as [m2 [ps|e|w]]; cbn [fst run_then] in *; [now apply Em|exact L|exact L].
      + cbn [add_run]. pose proof (Em nm (AStruct []) x Hx) as H0. destruct (try_emplace nm (AStruct []) x) as [x0 ins]. cbn [fst] in H0. destruct ins; [|exact H0].
        match goal with |- context [fst (?g fs x0)] => set (go := g) end.
        assert (L : forall l, (forall f, In f l -> In f fs) -> forall x, afind n x <> None -> afind n (fst (go l x)) <> None).
        { induction l as [|f l IHl]; intros Hs y Hy; [exact Hy|]. cbn [go]. fold go. rewrite Forall_forall in IH. pose proof (IH f (Hs f (or_introl eq_refl)) y Hy) as X.
          destruct (add_run (snd f) y) as [m2 [p|e|w]]; cbn [fst run_then] in *; [|exact X|exact X]. unfold push_field. destruct (afind nm m2) as [d|] eqn:E; [|exact X].
          destruct d; cbn [fst]; try exact X. apply IHl; [intros g Hg; apply Hs; now right|]. rewrite afind_aset, E. destruct (beq n nm); [discriminate|exact X]. }
        apply (L fs (fun f H => H)); exact H0.
      + exact (Wr t _ _ _ (fun e => e) x IH Hx). }
  destruct Pr as [d Hd]. destruct (New n d Fn Hd) as (u & Hu & En & Ed & D).
  assert (Eu : remains u = remains (JStruct n fs)).
  { destruct C as [Nm _]. pose proof (Nm u (JStruct n fs) Hu (parts_self _)) as X. cbn [abi_name type_name] in X. specialize (X (eq_sym En)). 
    destruct (parts_down _ _ Hu) as [->|(c & Hc & Hu')]; [reflexivity|]. exfalso.
    assert (Dp : depth u = depth (JStruct n fs)).
    { apply (same_depth (fun x => In x (parts (JStruct n fs)))); [intros a b; apply parts_closed|exact Nm|exact Hu|apply parts_self|symmetry; exact En]. }
    pose proof (depth_child _ _ Hc). pose proof (depth_part _ _ Hu'). lia. }
  rewrite Eu in Ed. cbn [remains] in Ed. set (b := before (fun f => well_nested (snd f)) fs) in *.
  assert (B : exists k, (k < List.length fs)%nat /\ b = firstn k fs).
  { assert (Bad : exists f, In f fs /\ well_nested (snd f) = false).
    { destruct (existsb (fun f => negb (well_nested (snd f))) fs) eqn:X.
      - apply existsb_exists in X as (f & Hf & X). exists f. split; [exact Hf|]. now apply negb_true_iff.
      - exfalso. assert (well_nested (JStruct n fs) = true); [|congruence]. apply well_nested_all; [reflexivity|]. intros c Hc. cbn [children] in Hc. apply in_map_iff in Hc as (f & <- & Hf).
        destruct (well_nested (snd f)) eqn:Y; [reflexivity|]. assert (existsb (fun f => negb (well_nested (snd f))) fs = true) by (apply existsb_exists; exists f; split; [exact Hf|now rewrite Y]). congruence. }
    unfold b. clear -Bad. induction fs as [|f fs IH]; [destruct Bad as (? & [] & _)|]. cbn [before List.length]. destruct (well_nested (snd f)) eqn:Wf.
    - destruct IH as (k & K & E). { destruct Bad as (g & [<-|Hg] & X); [congruence|eauto]. } exists (S k). split; [lia|]. cbn [firstn]. now rewrite E.
    - exists O. split; [lia|reflexivity]. }
  destruct B as (k & K & B). exists (map (fun f => (fst f, abi_name (snd f))) b). rewrite Hd, Ed. split; [reflexivity|]. rewrite map_length, B, firstn_length, Nat.min_l by lia.
  split; [exact K|]. split; [now rewrite firstn_map|]. split; [exact Er|]. cbn [add_run]. unfold try_emplace. rewrite Hd. reflexivity.
Qed.
Print Assumptions C62_retry_refuted.

(** ** Example: struct holder { int32_t a; std::vector<std::vector<int32_t>> b; int32_t c; } *)
Definition holder : jty := JStruct (str "holder") [(str "a", JScalar B_int32); (str "b", JVec (JVec (JScalar B_int32))); (str "c", JScalar B_int32)].
Definition holder_table : amap := Eval vm_compute in fst (add_run holder ex_table).
Example C62_hypotheses :
  table ex_table /\ addable holder = true /\ coherent ex_table holder /\ well_nested holder = false /\ afind (str "holder") ex_table = None /\
  add_run holder ex_table = (holder_table, Err E_invalid_nesting) /\
  afind (str "holder") holder_table = Some (AStruct [(str "a", str "int32")]) /\ afind (str "int32[]") holder_table = Some (AArray (str "int32")) /\
  afind (str "int32[][]") holder_table = None /\ add_run holder holder_table = (holder_table, Ok (str "holder")).
Proof.
  split; [exact ex_table_table|]. split; [reflexivity|]. split; [apply coherent_dec; vm_compute; reflexivity|]. split; [reflexivity|]. split; [vm_compute; reflexivity|].
  split; [vm_compute; reflexivity|]. split; [vm_compute; reflexivity|]. split; [vm_compute; reflexivity|]. split; vm_compute; reflexivity.
Qed.
(** The type which the second call returns reads the first field only of the bytes of a holder. *)
Example C62_retry_reads :
  let bin := [1; 0; 0; 0; 0; 3; 0; 0; 0] in
  convert_to_bin (fun _ => TRef 0) 0 (erase holder) (VList [VInt 1; VList []; VInt 3]) [] = Ok bin /\
  bin_to_json no_floats holder_table (str "holder") bin (Ok (str "{""a"":1}", [0; 3; 0; 0; 0])).
Proof. cbv zeta. split; [vm_compute; reflexivity|]. apply bin_to_json_eq. vm_compute. reflexivity. Qed.
