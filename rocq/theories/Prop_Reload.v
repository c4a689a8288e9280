(** * C64: several definitions in one abi, and what a failing load leaves

    Vocabulary (ReloadSpec.v): [convert_run b c] (Reload.v): the abi after convert(b, c), and whether the call threw;
    [history a c r]: definitions were loaded into c one after the other, with lookups in between, any of them failing;
    r is the result of the last load and a is all that was taken of the definitions; [takes c b k]: up to the first
    name which is empty, built-in, already in the table of c or repeated, b brings k names. *)
From Verif Require Import Base Stream TypedBin Asset Json JsonSpec Keys Abi AbiSpec AbiFacts AbiLoad Prop_Abi AbiScalar AbiValue Machine AbiBin AbiBinFacts AbiJson AbiStable Reload ReloadSpec ReloadFacts.

(** ** The first load is the load of C26 and C27 *)
Theorem C64_first b :
  match convert b with
  | Ok c => convert_run b empty_loaded = (c, Ok tt) /\ history b c (Ok tt)
  | Err e => exists c, convert_run b empty_loaded = (c, Err e)
  | Undef _ => False
  end.
Proof. pose proof (convert_run_fresh b) as H. pose proof (convert_total b) as T. destruct (convert b) eqn:C; [split; [exact H|now apply convert_history]|exact H|contradiction]. Qed.
Print Assumptions C64_first.

(** ** Every history *)
(** Every load is a step of a history, with one number of names taken; all of them are taken when it succeeds. *)
Theorem C64_every_load a c r b : history a c r ->
  exists k c' r', takes c b k /\ convert_run b c = (c', r') /\ history (merge a (first_declarations k b)) c' r' /\
    (forall j, takes c b j -> j = k) /\ (r' = Ok tt -> first_declarations k b = b) /\
    (r' = Ok tt \/ exists e, r' = Err e /\ In e load_errors).
Proof.
  intros H. pose proof (history_good a c r H) as (F & I0 & _). pose proof (usable_inv a c I0) as U. destruct (takes_exists c _ b U) as (k & T). destruct (convert_run b c) as [c' r'] eqn:R.
  exists k, c', r'. split; [exact T|]. split; [reflexivity|]. split; [eapply next_load; eassumption|]. split; [intros j Tj; exact (takes_unique c b j k Tj T)|].
  pose proof (emplace_initial_present a _ I0) as E. rewrite <- E in I0 at 1. rewrite <- E in U at 1. destruct (load_step a c b k c' r' I0 F U R T) as (_ & _ & X & _).
  destruct r' as [[]|e|w]; [|split; [discriminate|eauto]|contradiction]. destruct X as [-> _]. split; [intros _; apply first_declarations_all|now left].
Qed.
Print Assumptions C64_every_load.

(** After any history: no load does anything undefined; if the last one succeeded the abi is what all the definitions
    say together, also those whose load failed; else every type is so or still to be resolved. A name has one meaning.
    Of the actions and tables with a name the last one counts, also of failing loads. *)
Theorem C64_history a c r : history a c r ->
  match r with Ok _ => faithful a (abi_types c) | Err e => In e load_errors | Undef _ => False end /\
  partly_faithful a (abi_types c) /\
  (forall t p q, denotes a t p -> denotes a t q -> p = q) /\
  (forall n, zfind n (action_types c) = last_declared ac_name ac_type n (ad_actions a)) /\
  (forall n, zfind n (table_types c) = last_declared tb_name tb_type n (ad_tables a)).
Proof.
  intros H. destruct (history_good a c r H) as (F & I0 & R & A & T). split; [exact R|]. split.
  { split; [apply I0|]. intros n d Hd. destruct (inv_data _ _ I0 _ _ Hd) as [D P]. split; [|exact P]. destruct d; cbn [raw_or_described] in D; try (left; exact D); right; exact D. }
  split; [|split; assumption]. intros t p q (k & Hp) (j & Hq). exact (denotes_fun a F _ _ _ Hp _ _ Hq).
Qed.
Print Assumptions C64_history.

(** Lookups: after a successful load they find exactly what the definitions say; after a failing one they find
    nothing else. *)
Theorem C64_lookup a c r t : history a c r ->
  match abi_get_type c t with
  | Ok (p, c') => denotes a t p /\ afind p (abi_types c') <> None /\ history a c' r
  | Err e => In e load_errors /\ (r = Ok tt -> forall p, ~ denotes a t p)
  | Undef _ => False
  end.
Proof.
  intros H. destruct (history_good a c r H) as (F & I0 & R & _). destruct (abi_get_type c t) as [[p c']|e|w] eqn:G.
  - pose proof (lookup a c r t H) as H'. rewrite (looked_up_ok _ _ _ _ G) in H'. revert G. unfold abi_get_type. generalize 32%nat. intros d G. apply bind_Ok in G as ([q m'] & G & X). injection X as <- <-.
    pose proof (get_type_good a d _ t I0) as Y. rewrite G in Y. destruct Y as (_ & _ & Y1 & Y2). split; [exact Y1|]. split; [exact Y2|exact H'].
  - split.
    + revert G. unfold abi_get_type. generalize 32%nat. intros d G. pose proof (get_type_good a d _ t I0) as Y. destruct (get_type d (abi_types c) t) as [[q m']|e'|w]; cbn [bind] in G; [discriminate| |contradiction]. assert (e' = e) by congruence. subst. exact Y.
    + intros ->. pose proof (lookup_now a c t F R) as L. rewrite G in L. apply L.
  - revert G. unfold abi_get_type. generalize 32%nat. intros d G. pose proof (get_type_good a d _ t I0) as Y. destruct (get_type d (abi_types c) t) as [[q m']|e'|w']; cbn [bind] in G; [discriminate|discriminate|exact Y].
Qed.
Print Assumptions C64_lookup.

(** ** How the declarations came does not matter *)
(** Two abis in which all loads in the end succeeded, of definitions which together declare the same, in any order
    and in any number of loads, find the same types and convert the same by them. *)
Theorem C64_same_declarations E a c a0 c0 : history a c (Ok tt) -> history a0 c0 (Ok tt) -> (forall n d, declares a n d <-> declares a0 n d) ->
  forall t,
    (forall p, (exists c1, abi_get_type c t = Ok (p, c1)) <-> (exists c2, abi_get_type c0 t = Ok (p, c2))) /\
    (forall p c1 c2, abi_get_type c t = Ok (p, c1) -> abi_get_type c0 t = Ok (p, c2) ->
      (forall bin r, bin_to_json E (abi_types c1) p bin r <-> bin_to_json E (abi_types c2) p bin r) /\
      (forall text bin r, json_to_bin E (abi_types c1) p text bin r <-> json_to_bin E (abi_types c2) p text bin r) /\
      (forall text bin r, json_to_bin_reorderable E (abi_types c1) p text bin r <-> json_to_bin_reorderable E (abi_types c2) p text bin r)).
Proof.
  intros H H0 Q t. destruct (history_good _ _ _ H) as (F & _ & Fa & _). destruct (history_good _ _ _ H0) as (F0 & _ & Fa0 & _).
  assert (Fb : faithful a (abi_types c0)) by (apply (faithful_eqv a0 a); [intros n d; symmetry; apply Q|exact Fa0]).
  pose proof (lookup_now a c t F Fa) as L. pose proof (lookup_now a c0 t F Fb) as L0. split.
  - intros p. split; intros (c1 & G).
    + rewrite G in L. destruct L as ((k & D) & _). destruct (abi_get_type c0 t) as [[q c2]|e|w]; [|exfalso; exact (proj2 L0 p (ex_intro _ k D))|contradiction]. destruct L0 as ((j & D0) & _). exists c2. now rewrite (denotes_fun a F _ _ _ D _ _ D0).
    + rewrite G in L0. destruct L0 as ((k & D) & _). destruct (abi_get_type c t) as [[q c2]|e|w]; [|exfalso; exact (proj2 L p (ex_intro _ k D))|contradiction]. destruct L as ((j & D0) & _). exists c2. now rewrite (denotes_fun a F _ _ _ D _ _ D0).
  - intros p c1 c2 G1 G2. rewrite G1 in L. rewrite G2 in L0. destruct L as (_ & P1 & Fa1). destruct L0 as (_ & P2 & Fa2).
    pose proof (faithful_both a _ _ p F Fa1 Fa2 P1 P2) as B. pose proof (faithful_both a _ _ p F Fa2 Fa1 P2 P1) as B'.
    pose proof (faithful_closed a _ _ F Fa1 Fa2) as K. pose proof (faithful_closed a _ _ F Fa2 Fa1) as K'.
    split; [|split]; intros; split; intros X; [eapply bin_to_json_same; eauto|eapply bin_to_json_same; eauto|eapply json_to_bin_same; eauto|eapply json_to_bin_same; eauto|eapply reorderable_same; eauto|eapply reorderable_same; eauto].
Qed.
Print Assumptions C64_same_declarations.
(** In particular, as one load of all the definitions together. *)
Theorem C64_same_as_one_load E a c c0 : history a c (Ok tt) -> convert a = Ok c0 ->
  (forall n, zfind n (action_types c) = zfind n (action_types c0) /\ zfind n (table_types c) = zfind n (table_types c0)) /\
  forall t,
    (forall p, (exists c1, abi_get_type c t = Ok (p, c1)) <-> (exists c2, abi_get_type c0 t = Ok (p, c2))) /\
    (forall p c1 c2, abi_get_type c t = Ok (p, c1) -> abi_get_type c0 t = Ok (p, c2) ->
      (forall bin r, bin_to_json E (abi_types c1) p bin r <-> bin_to_json E (abi_types c2) p bin r) /\
      (forall text bin r, json_to_bin E (abi_types c1) p text bin r <-> json_to_bin E (abi_types c2) p text bin r) /\
      (forall text bin r, json_to_bin_reorderable E (abi_types c1) p text bin r <-> json_to_bin_reorderable E (abi_types c2) p text bin r)).
Proof.
  intros H H0. apply convert_history in H0. split; [|apply (C64_same_declarations E a c a c0 H H0); tauto].
  destruct (history_good _ _ _ H) as (_ & _ & _ & A & T). destruct (history_good _ _ _ H0) as (_ & _ & _ & A0 & T0). intros n. split; congruence.
Qed.
Print Assumptions C64_same_as_one_load.

(** ** What is there stays, also when a load fails *)
Theorem C64_types_stay b c c' r : convert_run b c = (c', r) ->
  forall p d, afind p (abi_types c) = Some d -> (forall x, d <> AAliasDef x) -> (forall x, d <> AStructDef x) -> (forall x, d <> AVariantDef x) -> afind p (abi_types c') = Some d.
Proof.
  intros H p d P N1 N2 N3. pose proof (convert_run_kept b c) as K. rewrite H in K. apply K; [exact P|]. destruct d as [| t|s|v| | | | | | ]; try reflexivity; exfalso; [exact (N1 t eq_refl)|exact (N2 s eq_refl)|exact (N3 v eq_refl)].
Qed.
Print Assumptions C64_types_stay.
Theorem C64_conversions_stay E a c b c' r p : history a c (Ok tt) -> convert_run b c = (c', r) -> afind p (abi_types c) <> None ->
  (forall bin x, bin_to_json E (abi_types c) p bin x <-> bin_to_json E (abi_types c') p bin x) /\
  (forall text bin x, json_to_bin E (abi_types c) p text bin x <-> json_to_bin E (abi_types c') p text bin x) /\
  (forall text bin x, json_to_bin_reorderable E (abi_types c) p text bin x <-> json_to_bin_reorderable E (abi_types c') p text bin x).
Proof.
  intros H R P. destruct (history_good _ _ _ H) as (_ & _ & Fa & _). pose proof (convert_run_kept b c) as K. rewrite R in K. cbn [fst] in K.
  destruct (kept_both _ _ p K (fun n => faithful_no_def a _ n Fa) P) as [B B']. destruct (kept_closed a _ _ K Fa) as [C C'].
  split; [|split]; intros; split; intros X; [eapply bin_to_json_same; eauto|eapply bin_to_json_same; eauto|eapply json_to_bin_same; eauto|eapply json_to_bin_same; eauto|eapply reorderable_same; eauto|eapply reorderable_same; eauto].
Qed.
Print Assumptions C64_conversions_stay.

(** ** When a further load succeeds *)
(** It does if its names are new and all the definitions together have no faults and chains within the limit; also
    when earlier loads failed. And its names must be new. *)
Theorem C64_succeeds a c r b : history a c r -> new_names c (own_names b) -> well_formed (merge a b) 32 ->
  exists c', convert_run b c = (c', Ok tt).
Proof.
  intros H N W. destruct (history_good _ _ _ H) as (F & I0 & _). pose proof (usable_inv a c I0) as U. pose proof (emplace_initial_present a _ I0) as E. rewrite <- E in I0 at 1. rewrite <- E in U at 1.
  destruct (convert_run b c) as [c' r'] eqn:R. destruct (load_step a c b _ c' r' I0 F U R (new_takes c b N)) as (_ & _ & _ & X). exists c'. now rewrite (X eq_refl W).
Qed.
Print Assumptions C64_succeeds.
Theorem C64_names_new a c r b c' : history a c r -> convert_run b c = (c', Ok tt) -> new_names c (own_names b).
Proof.
  intros H R. destruct (history_good _ _ _ H) as (F & I0 & _). pose proof (usable_inv a c I0) as U. destruct (takes_exists c _ b U) as (k & T). pose proof (emplace_initial_present a _ I0) as E. rewrite <- E in I0 at 1. rewrite <- E in U at 1.
  destruct (load_step a c b k c' _ I0 F U R T) as (_ & _ & (-> & _) & _). destruct T as (_ & T & _). now rewrite firstn_all in T.
Qed.
Print Assumptions C64_names_new.

(** ** No rollback *)
Definition def_of (types : list type_def) (structs : list struct_def) (actions : list action_def) : abi_def := AbiDef (str "eosio::abi/1.1") types structs actions [] [] [] [] [].
Definition point : struct_def := StructDef (str "point") [] [FieldDef (str "x") (str "num"); FieldDef (str "tag") (str "name")].
(** It uses num, which it does not declare. *)
Definition lacking : abi_def := def_of [] [point] [ActionDef 7 (str "point") []].
Definition corrected : abi_def := def_of [TypeDef (str "num") (str "uint8")] [point] [ActionDef 7 (str "point") []].
Definition supplement : abi_def := def_of [TypeDef (str "num") (str "uint8")] [] [].
Definition failed : abi := Eval vm_compute in fst (convert_run lacking empty_loaded).
Definition completed : abi := Eval vm_compute in fst (convert_run supplement failed).
Lemma takes_new_all c m b : usable c m -> (exists m', declare (declarations b) m = Ok m') -> takes c b (List.length (own_names b)).
Proof. intros U H. apply new_takes. apply (new_clear c m _ U). rewrite own_names_spec. now apply declare_clear. Qed.
Lemma failed_history : history lacking failed (Err E_unknown_type).
Proof.
  assert (R : convert_run lacking empty_loaded = (failed, Err E_unknown_type)) by (vm_compute; reflexivity).
  assert (T : takes empty_loaded lacking (List.length (own_names lacking))) by (apply (takes_new_all _ _ _ usable_empty); eexists; vm_compute; reflexivity).
  pose proof (first_load _ _ _ _ R T) as H. now rewrite first_declarations_all in H.
Qed.
Lemma completed_history : history (merge lacking supplement) completed (Ok tt).
Proof.
  assert (R : convert_run supplement failed = (completed, Ok tt)) by (vm_compute; reflexivity).
  pose proof (usable_inv _ _ (proj1 (proj2 (history_good _ _ _ failed_history)))) as U.
  assert (T : takes failed supplement (List.length (own_names supplement))) by (apply (takes_new_all _ _ _ U); eexists; vm_compute; reflexivity).
  pose proof (next_load _ _ _ _ _ _ _ failed_history R T) as H. now rewrite first_declarations_all in H.
Qed.
(** A failing load is not undone: its action is there, its struct is found by lookups but is not resolved, and
    converting by it is undefined; loading the corrected definition fails although a fresh abi takes it; loading what
    was missing succeeds and then the struct is usable. *)
Theorem C64_rollback_refuted E :
  exists c, convert_run lacking empty_loaded = (c, Err E_unknown_type) /\ history lacking c (Err E_unknown_type) /\
    zfind 7 (action_types c) = Some (str "point") /\
    (exists c1, abi_get_type c (str "point") = Ok (str "point", c1) /\ exists w, bin_to_json E (abi_types c1) (str "point") [5; 0; 0; 0; 0; 0; 0; 0; 0] (Undef w)) /\
    (exists c2, convert_run corrected c = (c2, Err E_redefined_type)) /\
    (exists c3, convert_run corrected empty_loaded = (c3, Ok tt)) /\
    (exists c4, convert_run supplement c = (c4, Ok tt) /\ history (merge lacking supplement) c4 (Ok tt) /\
       bin_to_json E (abi_types c4) (str "point") [5; 0; 0; 0; 0; 0; 0; 0; 0] (Ok (str "{""x"":5,""tag"":""""}", []))).
Proof.
  exists failed. split; [vm_compute; reflexivity|]. split; [apply failed_history|]. split; [reflexivity|]. split; [|split; [|split]].
  - exists failed. split; [vm_compute; reflexivity|]. eexists. unfold bin_to_json. set (x := bstart E (abi_types failed) chain_budget true (str "point") _). vm_compute in x. subst x. reflexivity.
  - eexists. vm_compute. reflexivity.
  - eexists. vm_compute. reflexivity.
  - exists completed. split; [vm_compute; reflexivity|]. split; [apply completed_history|]. apply bin_to_json_eq. vm_compute. reflexivity.
Qed.
Print Assumptions C64_rollback_refuted.

(** ** A lookup can make a load fail *)
(** A looked up text stays in the table: a definition which declares a type of that name can then not be loaded. *)
Definition odd : abi_def := def_of [TypeDef (str "bool[]") (str "uint8")] [] [].
Theorem C64_lookups_harmless_refuted :
  exists c, convert_run supplement empty_loaded = (c, Ok tt) /\
    (exists c', convert_run odd c = (c', Ok tt) /\ afind (str "bool[]") (abi_types c') = Some (AAlias (str "uint8"))) /\
    exists c1, abi_get_type c (str "bool[]") = Ok (str "bool[]", c1) /\ exists c2, convert_run odd c1 = (c2, Err E_redefined_type).
Proof.
  eexists. split; [vm_compute; reflexivity|]. split.
  - eexists. split; vm_compute; reflexivity.
  - eexists. split; [vm_compute; reflexivity|]. eexists. vm_compute. reflexivity.
Qed.
Print Assumptions C64_lookups_harmless_refuted.

(** ** The hypotheses are met *)
(** Two definitions, the second using the types of the first, with a lookup in between; loaded at once they give the
    same; and a third whose second declaration is not new fails after taking the first. *)
Definition shapes : abi_def :=
  AbiDef (str "eosio::abi/1.1") [TypeDef (str "points") (str "point[]")] [StructDef (str "circle") (str "point") [FieldDef (str "r") (str "num")]] [ActionDef 7 (str "circle") []] [] [] [] []
         [VariantDef (str "shape") [str "point"; str "circle"]].
Definition twice : abi := Eval vm_compute in fst (convert_run shapes (abi_looked_up (fst (convert_run corrected empty_loaded)) (str "num[]"))).
Definition clash : abi_def := def_of [TypeDef (str "fine") (str "num"); TypeDef (str "num") (str "name"); TypeDef (str "later") (str "num")] [] [].
Lemma twice_history : history (merge corrected shapes) twice (Ok tt).
Proof.
  pose proof (C64_first corrected) as F. destruct (convert corrected) as [c|e|w] eqn:C; [|vm_compute in C; discriminate|vm_compute in C; discriminate]. destruct F as [R H].
  apply (lookup _ _ _ (str "num[]")) in H. set (c1 := abi_looked_up c (str "num[]")) in *.
  assert (R2 : convert_run shapes c1 = (twice, Ok tt)).
  { assert (X : c = fst (convert_run corrected empty_loaded)) by now rewrite R. subst c1. rewrite X. vm_compute. reflexivity. }
  pose proof (usable_inv _ _ (proj1 (proj2 (history_good _ _ _ H)))) as U. destruct (takes_exists c1 _ shapes U) as (k & T).
  pose proof (C64_names_new _ _ _ _ _ H R2) as N. pose proof (takes_unique _ _ _ _ T (new_takes _ _ N)). subst k.
  pose proof (next_load _ _ _ _ _ _ _ H R2 T) as X. now rewrite first_declarations_all in X.
Qed.
Example several_loads :
  afind (str "circle") (abi_types twice) = Some (AStruct [(str "x", str "uint8"); (str "tag", str "name"); (str "r", str "uint8")]) /\
  zfind 7 (action_types twice) = Some (str "circle") /\
  (exists c0, convert (merge corrected shapes) = Ok c0) /\
  snd (convert_run clash twice) = Err E_redefined_type /\ takes twice clash 1 /\
  afind (str "fine") (abi_types (fst (convert_run clash twice))) = Some (AAliasDef (str "num")) /\ afind (str "later") (abi_types (fst (convert_run clash twice))) = None.
Proof.
  split; [reflexivity|]. split; [reflexivity|]. split; [eexists; vm_compute; reflexivity|]. split; [vm_compute; reflexivity|]. split; [|split; vm_compute; reflexivity].
  pose proof (usable_inv _ _ (proj1 (proj2 (history_good _ _ _ twice_history)))) as U.
  split; [vm_compute; lia|]. split.
  - apply (new_clear _ _ _ U). split; [constructor; [split; [discriminate|reflexivity]|constructor]|]. repeat constructor. intros [].
  - intros _ N. apply (new_clear _ _ _ U) in N. destruct N as [N _]. inversion N as [|? ? _ N2]; subst. inversion N2 as [|? ? [_ X] _]; subst. vm_compute in X. discriminate.
Qed.
