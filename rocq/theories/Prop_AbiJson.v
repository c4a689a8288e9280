(** * C29-C32: JSON to binary by an ABI, with both converters *)
From Coq Require Import Permutation.
From Verif Require Import Base Stream StreamFacts TypedBin TypedSpec KeysFacts Utf8 Json JsonSpec JsonStrFacts JsonFacts JsonSound JsonWrite JsonPrint Prop_Json
  Asset Keys Abi AbiSpec AbiFacts AbiLoad Prop_Abi AbiScalar AbiScalarFacts Machine AbiValue AbiBin AbiBinFacts AbiBinSound AbiDoc AbiUse Prop_AbiBin
  AbiJson AbiRead AbiJsonFacts AbiJsonSound AbiJsonText AbiJsonCut AbiJsonSafe AbiJvalue AbiReadBack.

(** ** From texts to documents *)
Lemma cstr_cstr t : cstr (cstr t) = cstr t.
Proof. induction t as [|c t IH]; [reflexivity|]. cbn [cstr]. destruct (c =? 0) eqn:C; [reflexivity|]. cbn [cstr]. now rewrite C, IH. Qed.
Lemma tokenize_cstr t : tokenize (cstr t) = tokenize t.
Proof. unfold tokenize. now rewrite cstr_cstr. Qed.
Lemma doc_tokens j text : json_text_lax j (cstr text) -> tokenize text = (tokens j, None).
Proof. intros H. rewrite <- tokenize_cstr. exact (tokenize_complete true j _ H). Qed.
Lemma doc_ok text j : bytes_ok text -> short text -> tokenize text = (tokens j, None) -> texts_ok j /\ arrays_ok j.
Proof.
  intros Hb Hs H. destruct (tokenize_tokens text _ _ Hb Hs H) as [F L]. split; [now apply tokens_texts|].
  apply tokens_arrays. unfold short in Hs. lia.
Qed.
Lemma doc_cases text : bytes_ok text -> (exists j, json_text_lax j (cstr text) /\ tokenize text = (tokens j, None)) \/ exists ts e, tokenize text = (ts, Some e).
Proof.
  intros Hb. destruct (tokenize text) as [ts [e|]] eqn:T; [right; eauto|left].
  destruct (tokenize_sound text ts Hb T) as (j & J & ->). eauto.
Qed.

Lemma reorderable_fun E m p text bin r1 r2 : json_to_bin_reorderable E m p text bin r1 -> json_to_bin_reorderable E m p text bin r2 -> r1 = r2.
Proof. unfold json_to_bin_reorderable. destruct (json_to_jvalue text); [apply exec_fun|congruence|congruence]. Qed.

(** ** C31: what each converter accepts *)
(** The ordered converter: the text is a JSON document whose objects have exactly the first
    fields of their struct, in the order of the definition, all but trailing extensions;
    nested at most 128 deep. The result is the binary form of the value. *)
Theorem C31_ordered_exactly E a t p m text bin out :
  loaded a t p m -> trailing_extensions m -> float_lib_ok E -> bytes_ok text -> short text ->
  json_to_bin E m p text bin (Ok out) <->
  exists j v, json_text_lax j (cstr text) /\ reads E m in_order true p j v /\ (level j <= 128)%nat /\ out = bin ++ enc v.
Proof.
  intros L TR FO Hb Hs. pose proof (loaded_sound _ _ _ _ L) as SM. split.
  - intros H. destruct (doc_cases text Hb) as [(j & J & T)|(ts & e & T)].
    + destruct (doc_ok _ _ Hb Hs T) as [Tx A]. pose proof (json_to_bin_run E m p j text bin FO SM Tx T) as R.
      pose proof (exec_fun _ _ _ _ H R) as Q. symmetry in Q. apply bind_Ok in Q as (v & Hv & Q).
      apply (jread_sound E m SM TR) in Hv as [Rd Lv]. exists j, v. split; [exact J|]. split; [exact Rd|]. split; [exact Lv|congruence].
    + destruct (json_to_bin_malformed E m p text bin ts e FO SM Hb Hs T) as (j & _ & _ & r & R & D).
      pose proof (exec_fun _ _ _ _ H R) as Q. destruct D as [[x ->]|(w & -> & _)]; discriminate.
  - intros (j & v & J & Rd & Lv & ->). pose proof (doc_tokens j text J) as T. destruct (doc_ok _ _ Hb Hs T) as [Tx A].
    pose proof (json_to_bin_run E m p j text bin FO SM Tx T) as R.
    rewrite (proj1 (jread_complete E m SM) _ _ _ _ Rd 128%nat A Lv) in R. exact R.
Qed.
Print Assumptions C31_ordered_exactly.

(** The reorderable converter: the fields are found by name, in any order; of several members
    of one name the last one counts, and members without a field are ignored. *)
Theorem C31_reorderable_exactly E a t p m text bin out :
  loaded a t p m -> float_lib_ok E -> bytes_ok text -> short text ->
  json_to_bin_reorderable E m p text bin (Ok out) <->
  exists j v, json_text_lax j (cstr text) /\ reads E m by_name true p j v /\ (height j <= 128)%nat /\ out = bin ++ enc v.
Proof.
  intros L FO Hb Hs. pose proof (loaded_sound _ _ _ _ L) as SM. split.
  - intros H. destruct (doc_cases text Hb) as [(j & J & T)|(ts & e & T)].
    + destruct (doc_ok _ _ Hb Hs T) as [Tx A]. pose proof (reorderable_run E m p j text bin FO SM Tx T) as R.
      pose proof (reorderable_fun _ _ _ _ _ _ _ H R) as Q. destruct (Nat.leb_spec (height j) max_stack_size) as [Hh|]; [|discriminate].
      symmetry in Q. apply bind_Ok in Q as (v & Hv & Q). apply (rread_sound E m) in Hv. exists j, v. split; [exact J|]. split; [exact Hv|]. split; [exact Hh|congruence].
    + exfalso. unfold json_to_bin_reorderable, json_to_jvalue in H. rewrite T in H. discriminate.
  - intros (j & v & J & Rd & Lv & ->). pose proof (doc_tokens j text J) as T. destruct (doc_ok _ _ Hb Hs T) as [Tx A].
    pose proof (reorderable_run E m p j text bin FO SM Tx T) as R. destruct (Nat.leb_spec (height j) max_stack_size) as [Hh|Hh]; [|unfold max_stack_size in Hh; lia].
    rewrite (proj1 (rread_complete E m SM) _ _ _ _ Rd (4 * height j + 3)%nat 3%nat A (sound_chain m p SM) (le_n _) (le_n _)) in R. exact R.
Qed.
Print Assumptions C31_reorderable_exactly.

(** Where the objects of a document are: [inside picks m p j q j']: in the document [j], read
    at the type [p], there is the document [j'] at the type [q]. *)
Inductive inside (picks : list bytes -> list (bytes * jv) -> list jv -> Prop) (m : amap) : bytes -> jv -> bytes -> jv -> Prop :=
| in_here p j : inside picks m p j p j
| in_opt p q j r x : afind p m = Some (AOptional q) \/ afind p m = Some (AExtension q) -> inside picks m q j r x -> inside picks m p j r x
| in_item p q l j r x : afind p m = Some (AArray q) -> In j l -> inside picks m q j r x -> inside picks m p (JArr l) r x
| in_alt p fs name q n j r x : afind p m = Some (AVariant fs) -> text_of n = Some name -> In (name, q) fs -> NoDup (map fst fs) ->
    inside picks m q j r x -> inside picks m p (JArr [n; j]) r x
| in_field p fs ms sel i n q j r x : afind p m = Some (AStruct fs) -> picks (map fst fs) ms sel ->
    nth_error fs i = Some (n, q) -> nth_error sel i = Some j -> inside picks m q j r x -> inside picks m p (JObj ms) r x.

Section Inside.
  Variables (E : float_lib) (picks : list bytes -> list (bytes * jv) -> list jv -> Prop) (m : amap).
  Hypothesis picks_fun : forall names ms sel sel', picks names ms sel -> picks names ms sel' -> sel = sel'.
  Lemma items_In q l vs j : reads_items E m picks q l vs -> In j l -> exists v, reads E m picks false q j v.
  Proof. induction 1; intros In_; [destruct In_|]. destruct In_ as [<-|In_]; eauto. Qed.
  Lemma fields_nth ext fs sel vs : reads_fields E m picks ext fs sel vs -> forall i n q j, nth_error fs i = Some (n, q) -> nth_error sel i = Some j ->
    exists ext' v, reads E m picks ext' q j v.
  Proof.
    induction 1; intros i n r x G1 G2; [destruct i; discriminate|destruct i; discriminate|]. destruct i as [|i]; cbn [nth_error] in *.
    - assert (q = r /\ j = x) as [-> ->] by (split; congruence). eauto.
    - eauto.
  Qed.
  Lemma in_null p q x : inside picks m p JNull q x -> x = JNull.
  Proof. intros H. remember JNull as y. induction H; subst; auto; discriminate. Qed.
  Lemma alt_unique (fs : list (bytes * bytes)) n q q' : NoDup (map fst fs) -> In (n, q) fs -> In (n, q') fs -> q = q'.
  Proof.
    induction fs as [|[k r] fs IH]; intros D H1 H2; [destruct H1|]. cbn [map fst] in D. inversion D as [|? ? D1 D2]; subst.
    destruct H1 as [H1|H1], H2 as [H2|H2]; [congruence| | |auto].
    - exfalso. apply D1. assert (k = n) by congruence. subst k. apply (in_map fst) in H2. exact H2.
    - exfalso. apply D1. assert (k = n) by congruence. subst k. apply (in_map fst) in H1. exact H1.
  Qed.
  Lemma inside_reads p j q x : inside picks m p j q x -> forall ext v, reads E m picks ext p j v ->
    x <> JNull -> exists ext' v', reads E m picks ext' q x v'.
  Proof.
    induction 1 as [p j|p q j r x Hp I IH|p q l j r x Hp Hj I IH|p fs name q n j r x Hp Hn Hin D I IH|p fs ms sel i n q j r x Hp Hpk Hi Hs I IH]; intros ext v R Nx.
    - eauto.
    - inversion R; subst; destruct Hp as [Hp|Hp]; try congruence;
        try (match goal with A : reads E m picks _ ?q' j _ |- _ => assert (q' = q) by congruence; subst q'; eapply IH; eauto end; fail).
      exfalso. apply in_null in I. auto.
    - inversion R; subst; try congruence.
      match goal with A : reads_items _ _ _ ?q' _ _ |- _ => assert (q' = q) by congruence; subst q'; destruct (items_In _ _ _ _ A Hj) as [v' Hv] end. eapply IH; eauto.
    - inversion R; subst; try congruence.
      match goal with A : afind p m = Some (AVariant ?fs'), B : nthz ?fs' _ = Some (?n', ?q'), C : text_of n = Some ?n' |- _ =>
        assert (fs' = fs) by congruence; subst fs'; assert (n' = name) by congruence; subst n'; apply nthz_In in B; assert (q' = q) by (eapply alt_unique; eauto); subst q' end.
      eapply IH; eauto.
    - inversion R; subst; try congruence.
      match goal with A : afind p m = Some (AStruct ?fs'), B : picks (map fst ?fs') _ ?sel', C : reads_fields _ _ _ _ ?fs' ?sel' _ |- _ =>
        assert (fs' = fs) by congruence; subst fs'; assert (sel' = sel) by (eapply picks_fun; eauto); subst sel'; destruct (fields_nth _ _ _ _ C _ _ _ _ Hi Hs) as (e' & v' & Hv) end.
      eapply IH; eauto.
  Qed.
  Lemma reads_object p fs ext ms v : afind p m = Some (AStruct fs) -> reads E m picks ext p (JObj ms) v ->
    exists sel vs, picks (map fst fs) ms sel /\ reads_fields E m picks ext fs sel vs.
  Proof.
    intros Hp R. inversion R; subst; try congruence; try discriminate.
    match goal with A : afind p m = Some (AStruct ?fs') |- _ => assert (fs' = fs) by congruence; subst fs' end. eauto.
  Qed.
  Lemma fields_split ext fs sel vs : reads_fields E m picks ext fs sel vs ->
    (List.length sel <= List.length fs)%nat /\ Forall (fun x => extension_type m (snd x)) (skipn (List.length sel) fs).
  Proof.
    induction 1; cbn [List.length skipn]; [split; [lia|constructor]|split; [lia|assumption]|]. destruct IHreads_fields. split; [lia|assumption].
  Qed.
End Inside.
Lemma in_order_fun names ms sel sel' : in_order names ms sel -> in_order names ms sel' -> sel = sel'.
Proof. intros [_ <-] [_ <-]. reflexivity. Qed.
Lemma by_name_fun names ms sel sel' : by_name names ms sel -> by_name names ms sel' -> sel = sel'.
Proof.
  revert sel sel'. induction names as [|n names IH]; intros sel sel' H H'.
  - apply by_name_nil in H. apply by_name_nil in H'. congruence.
  - destruct sel as [|j sel], sel' as [|j' sel']; auto.
    + apply by_name_none in H. apply by_name_cons in H' as [H' _]. inversion H; subst. congruence.
    + apply by_name_none in H'. apply by_name_cons in H as [H _]. inversion H'; subst. congruence.
    + apply by_name_cons in H as [H1 H2]. apply by_name_cons in H' as [H1' H2']. f_equal; [congruence|auto].
Qed.

(** A document accepted by the ordered converter: at every place, no object lacks a field
    which is not an extension, and none has a member which is not a field. *)
Theorem C31_ordered_fields E a t p m text bin out j q ms fs :
  loaded a t p m -> trailing_extensions m -> float_lib_ok E -> bytes_ok text -> short text ->
  json_to_bin E m p text bin (Ok out) ->
  json_text_lax j (cstr text) -> inside in_order m p j q (JObj ms) -> afind q m = Some (AStruct fs) ->
  (forall n r, In (n, r) fs -> ~ extension_type m r -> In n (map fst ms)) /\
  (forall n, In n (map fst ms) -> In n (map fst fs)).
Proof.
  intros L TR FO Hb Hs H J I Hq. pose proof (loaded_sound _ _ _ _ L) as SM.
  pose proof (doc_tokens j text J) as T. destruct (doc_ok _ _ Hb Hs T) as [Tx A].
  pose proof (json_to_bin_run E m p j text bin FO SM Tx T) as R. pose proof (exec_fun _ _ _ _ H R) as Q. symmetry in Q. apply bind_Ok in Q as (v & Hv & _).
  apply (jread_sound E m SM TR) in Hv as [Rd _].
  destruct (inside_reads E in_order m in_order_fun _ _ _ _ I _ _ Rd ltac:(discriminate)) as (e' & v' & Rd').
  destruct (reads_object E in_order m _ _ _ _ _ Hq Rd') as (sel & vs & [P1 P2] & F). apply fields_split in F as [F1 F2]. subst sel. rewrite map_length in *.
  rewrite P1. split.
  - intros n r Hin Nx. rewrite <- (firstn_skipn (List.length ms) fs) in Hin. apply in_app_or in Hin as [Hin|Hin].
    + apply (in_map fst) in Hin. now rewrite firstn_map.
    + exfalso. rewrite Forall_forall in F2. apply Nx. apply (F2 _ Hin).
  - intros n Hin. rewrite <- (firstn_skipn (List.length ms) (map fst fs)). apply in_or_app. now left.
Qed.
Print Assumptions C31_ordered_fields.
(** The reorderable converter: no object lacks a field which is not an extension. *)
Theorem C31_reorderable_fields E a t p m text bin out j q ms fs :
  loaded a t p m -> float_lib_ok E -> bytes_ok text -> short text ->
  json_to_bin_reorderable E m p text bin (Ok out) ->
  json_text_lax j (cstr text) -> inside by_name m p j q (JObj ms) -> afind q m = Some (AStruct fs) ->
  forall n r, In (n, r) fs -> ~ extension_type m r -> In n (map fst ms).
Proof.
  intros L FO Hb Hs H J I Hq. pose proof (loaded_sound _ _ _ _ L) as SM.
  pose proof (doc_tokens j text J) as T. destruct (doc_ok _ _ Hb Hs T) as [Tx A].
  pose proof (reorderable_run E m p j text bin FO SM Tx T) as R. pose proof (reorderable_fun _ _ _ _ _ _ _ H R) as Q.
  destruct (Nat.leb_spec (height j) max_stack_size) as [Hh|]; [|discriminate]. symmetry in Q. apply bind_Ok in Q as (v & Hv & _). apply (rread_sound E m) in Hv.
  destruct (inside_reads E by_name m by_name_fun _ _ _ _ I _ _ Hv ltac:(discriminate)) as (e' & v' & Rd').
  destruct (reads_object E by_name m _ _ _ _ _ Hq Rd') as (sel & vs & P & F). clear - P F. intros n r Hin Nx.
  revert n r Hin Nx. induction F as [|f fs H|ext name q fs j js v l _ _ IH]; intros n r Hin Nx; [destruct Hin| |].
  - exfalso. rewrite Forall_forall in H. apply Nx. apply (H _ Hin).
  - cbn [map fst] in P. apply by_name_cons in P as [P1 P2]. destruct Hin as [Hin|Hin]; [|eauto].
    assert (name = n) by congruence. subst name. clear - P1.
    destruct (in_dec (list_eq_dec Z.eq_dec) n (map fst ms)) as [Y|N]; [exact Y|]. rewrite last_value_absent in P1 by exact N. discriminate.
Qed.
Print Assumptions C31_reorderable_fields.

(** ** C30: the order of the members of an object *)
(** The same document up to the order of the members of its objects, at every level; the
    members of an object have different names. *)
Inductive reordered : jv -> jv -> Prop :=
| reord_same j : reordered j j
| reord_arr l l' : Forall2 reordered l l' -> reordered (JArr l) (JArr l')
| reord_obj l l1 l' : NoDup (map fst l) -> Forall2 (fun x y => fst x = fst y /\ reordered (snd x) (snd y)) l l1 -> Permutation l1 l' ->
    reordered (JObj l) (JObj l').

Lemma fold_max_In (f : jv -> nat) (l : list jv) n : (forall x, In x l -> (f x <= n)%nat) <-> (fold_right (fun x k => Nat.max (f x) k) O l <= n)%nat.
Proof.
  induction l as [|x l IH]; cbn [fold_right].
  - split; [lia|intros _ ? []].
  - split.
    + intros H. pose proof (H x (or_introl eq_refl)). assert (fold_right (fun x k => Nat.max (f x) k) O l <= n)%nat by (apply IH; intros y Hy; apply H; now right). lia.
    + intros H y [<-|Hy]; [lia|]. apply IH; [lia|exact Hy].
Qed.
Lemma reordered_height : forall j j', reordered j j' -> height j = height j'.
Proof.
  assert (L : forall (A : Type) (f : A -> jv) (l l' : list A), Forall2 (fun x y => height (f x) = height (f y)) l l' ->
     fold_right (fun x n => Nat.max (height (f x)) n) O l = fold_right (fun x n => Nat.max (height (f x)) n) O l').
  { intros A f l l'. induction 1; cbn [fold_right]; congruence. }
  assert (Pm : forall (A : Type) (f : A -> jv) (l l' : list A), Permutation l l' ->
     fold_right (fun x n => Nat.max (height (f x)) n) O l = fold_right (fun x n => Nat.max (height (f x)) n) O l').
  { intros A f l l'. induction 1; cbn [fold_right]; lia. }
  induction j as [| b | s | t | l IH | l IH] using jv_ind'; intros j' R; inversion R as [|? l' F|? l1 l' D F P]; subst; auto; cbn [height]; f_equal.
  - apply (L jv (fun x => x)). clear R. induction F; constructor; inversion IH; subst; auto.
  - rewrite <- (Pm _ snd _ _ P). apply (L _ snd). clear R P D. induction F as [|? ? ? ? [_ ?]]; constructor; inversion IH; subst; auto.
Qed.
Lemma last_value_perm n (l l' : list (bytes * jv)) : NoDup (map fst l) -> Permutation l l' -> last_value n l = last_value n l'.
Proof.
  intros D P. assert (D' : NoDup (map fst l')) by (eapply Permutation_NoDup; [apply Permutation_map; exact P|exact D]).
  destruct (in_dec (list_eq_dec Z.eq_dec) n (map fst l)) as [Y|N].
  - apply in_map_iff in Y as ([k x] & <- & Y). cbn [fst]. rewrite (last_value_one k x l D Y). symmetry. apply last_value_one; auto. eapply Permutation_in; eauto.
  - rewrite !last_value_absent; auto. intros X. apply N. eapply Permutation_in; [apply Permutation_sym, Permutation_map; exact P|exact X].
Qed.
Lemma last_value_alike n (l l1 : list (bytes * jv)) : Forall2 (fun x y => fst x = fst y /\ reordered (snd x) (snd y)) l l1 ->
  match last_value n l, last_value n l1 with Some x, Some y => reordered x y | None, None => True | _, _ => False end.
Proof.
  induction 1 as [|[k x] [k' x'] l l1 [K R] _ IH]; [exact I|]. cbn [fst snd last_value] in *. subst k'.
  destruct (last_value n l), (last_value n l1); try contradiction; [exact IH|]. destruct (beq k n); auto.
Qed.
Lemma reordered_value n l l1 l' : NoDup (map fst l) -> Forall2 (fun x y => fst x = fst y /\ reordered (snd x) (snd y)) l l1 -> Permutation l1 l' ->
  match last_value n l, last_value n l' with Some x, Some y => reordered x y | None, None => True | _, _ => False end.
Proof.
  intros D F P. assert (Q : map fst l1 = map fst l) by (clear - F; induction F as [|? ? ? ? [? _]]; cbn [map]; congruence).
  rewrite <- (last_value_perm n l1 l'); [now apply last_value_alike| |exact P]. now rewrite Q.
Qed.
Lemma reordered_read E m : forall n ext p j j', reordered j j' -> rread E m n ext p (norm j) = rread E m n ext p (norm j').
Proof.
  induction n as [|n IH]; intros ext p j j' R; [reflexivity|]. cbn [rread]. destruct (deref p m) as [d|e|w]; [|reflexivity|reflexivity]. cbn [bind].
  inversion R as [|l l' F|l l1 l' D F P]; subst; [reflexivity| |].
  - cbn [norm]. assert (Len : List.length (map norm l) = List.length (map norm l')) by (rewrite !map_length; clear - F; induction F; cbn [List.length]; congruence).
    destruct d as [b| | | |q|q|q|q|fs|fs]; try reflexivity.
    + assert (X : rread E m n ext q (JArr (map norm l)) = rread E m n ext q (JArr (map norm l'))) by exact (IH ext q _ _ R). now rewrite X.
    + exact (IH ext q _ _ R).
    + rewrite Len. assert (X : ritems (rread E m n) q (map norm l) = ritems (rread E m n) q (map norm l')).
      { clear - IH F. induction F as [|x y l l' H _ IHF]; [reflexivity|]. cbn [map ritems]. rewrite (IH _ _ _ _ H). now rewrite IHF. }
      now rewrite X.
    + assert (V : forall x y, reordered x y -> match norm x with JStr _ => norm x = norm y | _ => match norm y with JStr _ => False | _ => True end end).
      { clear. intros x y H. inversion H; subst; try exact I. destruct (norm y); exact I || reflexivity. }
      unfold rvariant. destruct F as [|x1 y1 l l' F1 F]; [reflexivity|]. destruct F as [|x2 y2 l l' F2 F].
      * cbn [map]. destruct (norm x1), (norm y1); reflexivity.
      * destruct F as [|x3 y3 l l' F3 F]; cbn [map].
        -- specialize (V _ _ F1). destruct (norm x1) eqn:N1; try (destruct (norm y1); reflexivity || contradiction). rewrite <- V.
           destruct (find_name s fs 0) as [[i q]|]; [|reflexivity]. now rewrite (IH _ _ _ _ F2).
        -- destruct (norm x1), (norm y1); reflexivity.
  - rewrite !norm_obj. destruct d as [b| | | |q|q|q|q|fs|fs]; try reflexivity.
    + assert (X : rread E m n ext q (JObj (build l [])) = rread E m n ext q (JObj (build l' []))) by exact (IH ext q _ _ R). now rewrite X.
    + exact (IH ext q _ _ R).
    + assert (X : forall sk, rfields m (rread E m n) ext fs (build l []) sk = rfields m (rread E m n) ext fs (build l' []) sk).
      { induction fs as [|[nm q] fs IHf]; intros sk; [reflexivity|]. cbn [rfields]. rewrite !ofind_build. pose proof (reordered_value nm l l1 l' D F P) as V. cbn [ofind].
        destruct (last_value nm l) as [x|], (last_value nm l') as [y|]; try contradiction.
        - rewrite (IH _ _ _ _ V). now rewrite IHf.
        - destruct (is_ext_type m q) as [x| |]; try reflexivity. cbn [bind]. destruct (check (x && ext) E_expected_field); try reflexivity. cbn [bind]. apply IHf. }
      now rewrite X.
Qed.
(** The reorderable converter treats both documents alike: the same bytes, or the same
    error. *)
Theorem C30_key_order E a t p m j j' text text' bin r :
  loaded a t p m -> float_lib_ok E -> bytes_ok text -> short text -> bytes_ok text' -> short text' ->
  json_text_lax j (cstr text) -> json_text_lax j' (cstr text') -> reordered j j' ->
  json_to_bin_reorderable E m p text bin r <-> json_to_bin_reorderable E m p text' bin r.
Proof.
  intros L FO Hb Hs Hb' Hs' J J' R. pose proof (loaded_sound _ _ _ _ L) as SM.
  pose proof (doc_tokens j text J) as T. destruct (doc_ok _ _ Hb Hs T) as [Tx _]. pose proof (reorderable_run E m p j text bin FO SM Tx T) as R1.
  pose proof (doc_tokens j' text' J') as T'. destruct (doc_ok _ _ Hb' Hs' T') as [Tx' _]. pose proof (reorderable_run E m p j' text' bin FO SM Tx' T') as R2.
  rewrite <- (reordered_height j j' R), <- (reordered_read E m _ true p j j' R) in R2.
  split; intros H.
  - rewrite (reorderable_fun _ _ _ _ _ _ _ H R1). exact R2.
  - rewrite (reorderable_fun _ _ _ _ _ _ _ H R2). exact R1.
Qed.
Print Assumptions C30_key_order.

(** Whatever the ordered converter accepts, the reorderable one accepts with the same result,
    up to its limit for the nesting of the document. *)
Theorem C30_agrees_with_ordered E a t p m j text bin out :
  loaded a t p m -> trailing_extensions m -> distinct_names m -> float_lib_ok E -> bytes_ok text -> short text ->
  json_text_lax j (cstr text) -> (height j <= 128)%nat ->
  json_to_bin E m p text bin (Ok out) -> json_to_bin_reorderable E m p text bin (Ok out).
Proof.
  intros L TR DN FO Hb Hs J Hh H. pose proof (loaded_sound _ _ _ _ L) as SM.
  pose proof (doc_tokens j text J) as T. destruct (doc_ok _ _ Hb Hs T) as [Tx A].
  pose proof (json_to_bin_run E m p j text bin FO SM Tx T) as R. pose proof (exec_fun _ _ _ _ H R) as Q. symmetry in Q. apply bind_Ok in Q as (v & Hv & Q).
  apply (jread_sound E m SM TR) in Hv as [Rd Lv]. apply (C31_reorderable_exactly E a t p m text bin out L FO Hb Hs).
  exists j, v. split; [exact J|]. split; [now apply (in_order_reads E m DN)|]. split; [exact Hh|congruence].
Qed.
Print Assumptions C30_agrees_with_ordered.

(** ** C29: the way back *)
(** The JSON form of a value is converted to its binary form, by both converters, whatever
    the white space and the way strings and numbers are written. *)
Theorem C29_json_to_bin E a t p m v j text bin :
  loaded a t p m -> distinct_names m -> float_lib_ok E -> ov E = Wrap -> bytes_ok text -> short text ->
  shows E m 128 true p v j -> plain E v -> json_text_lax j (cstr text) ->
  json_to_bin E m p text bin (Ok (bin ++ enc v)) /\
  ((height j <= 128)%nat -> json_to_bin_reorderable E m p text bin (Ok (bin ++ enc v))).
Proof.
  intros L DN FO W Hb Hs Sh P J. pose proof (loaded_sound _ _ _ _ L) as SM.
  pose proof (doc_tokens j text J) as T. destruct (doc_ok _ _ Hb Hs T) as [Tx A].
  destruct (proj1 (shows_reads E m SM W DN) _ _ _ _ _ Sh P) as (Rd & Lv & A'). split.
  - pose proof (json_to_bin_run E m p j text bin FO SM Tx T) as R.
    rewrite (proj1 (jread_complete E m SM) _ _ _ _ Rd 128%nat A Lv) in R. exact R.
  - intros Hh. apply (C31_reorderable_exactly E a t p m text bin _ L FO Hb Hs). exists j, v.
    split; [exact J|]. split; [now apply (in_order_reads E m DN)|]. auto.
Qed.
Print Assumptions C29_json_to_bin.

Lemma digits_bytes d : digits d -> bytes_ok d.
Proof. intros H. eapply Forall_impl; [|exact H]. cbv beta. unfold is_byte. intros; lia. Qed.
Lemma number_bytes t : number_fits t -> bytes_ok t.
Proof.
  intros (mi & i & f & e & (-> & M & I & F & X) & _). apply bytes_app; [destruct M as [->| ->]; apply bytes_okb_spec; reflexivity|].
  apply bytes_app; [|apply bytes_app].
  - destruct I as [->|(c & d & -> & Hc & Hd)]; [apply bytes_okb_spec; reflexivity|]. constructor; [unfold is_byte; lia|now apply digits_bytes].
  - destruct F as [->|(d & -> & _ & Hd)]; [constructor|]. constructor; [unfold is_byte; lia|now apply digits_bytes].
  - destruct X as [->|(c & sg & d & -> & Hc & Hsg & _ & Hd)]; [constructor|]. constructor; [unfold is_byte; lia|].
    apply bytes_app; [destruct Hsg as [->|[->| ->]]; apply bytes_okb_spec; reflexivity|now apply digits_bytes].
Qed.
Lemma sep_bytes l : Forall bytes_ok l -> bytes_ok (sep_concat l).
Proof.
  induction 1 as [|x l Hx Hl IH]; [constructor|]. destruct l as [|y l]; [exact Hx|].
  rewrite sep_concat_cons. apply bytes_app; [exact Hx|]. apply bytes_app; [apply bytes_okb_spec; reflexivity|exact IH].
Qed.
Lemma string_bytes s : bytes_ok s -> bytes_ok (to_json_string s).
Proof. intros H. destruct (C25_output_is_a_json_string s H) as (c & _ & _ & _ & U). now apply utf8_bytes_ok. Qed.
Lemma print_bytes : forall j, writable j -> bytes_ok (print j).
Proof.
  induction j as [| b | s | t | l IH | l IH] using jv_ind'; intros W; inversion W; subst; cbn [print].
  - apply bytes_okb_spec; reflexivity.
  - destruct b; apply bytes_okb_spec; reflexivity.
  - now apply string_bytes.
  - now apply number_bytes.
  - apply bytes_app; [apply bytes_okb_spec; reflexivity|]. apply bytes_app; [|apply bytes_okb_spec; reflexivity]. apply sep_bytes.
    match goal with F : Forall writable l |- _ => clear W; revert IH; induction F; intros IH; [constructor|inversion IH; subst; constructor; auto] end.
  - apply bytes_app; [apply bytes_okb_spec; reflexivity|]. apply bytes_app; [|apply bytes_okb_spec; reflexivity]. apply sep_bytes.
    match goal with F : Forall _ l |- _ => clear W; revert IH; induction F as [|x l [Hx1 Hx2] F IHF]; intros IH; [constructor|inversion IH; subst; constructor; auto] end.
    apply bytes_app; [now apply string_bytes|]. apply bytes_app; [apply bytes_okb_spec; reflexivity|auto].
Qed.

(** Binary to JSON to binary is the identity: on the binary form of a value, the text which
    bin_to_json returns is converted back to the same bytes. *)
Theorem C29_bin_json_bin E a t p m v j :
  loaded a t p m -> distinct_names m -> utf8_names m -> float_lib_ok E -> ov E = Wrap ->
  shows E m 128 true p v j -> plain E v -> settled m [] p v -> short (print j) ->
  bin_to_json E m p (enc v) (Ok (print j, [])) /\
  json_to_bin E m p (print j) [] (Ok (enc v)) /\
  ((height j <= 128)%nat -> json_to_bin_reorderable E m p (print j) [] (Ok (enc v))).
Proof.
  intros L DN UN FO W Sh P D Hs. pose proof (loaded_sound _ _ _ _ L) as SM. split.
  - pose proof (C28_decodes_every_value E a t p m v j [] L Sh D) as H. now rewrite app_nil_r in H.
  - assert (NO : names_ok m) by (intros q fs Hq; eapply Forall_impl; [|exact (UN q fs Hq)]; cbv beta; intros f; apply utf8_bytes_ok).
    pose proof (proj1 (shows_writable E m NO) _ _ _ _ _ Sh) as Wr. pose proof (proj1 (shows_utf8 E m W UN) _ _ _ _ _ Sh P) as U.
    pose proof (print_text_utf8 j Wr U) as J. apply C44_reads_every_document in J. pose proof (print_bytes j Wr) as Hb.
    destruct (tokenize_sound _ _ Hb J) as (j' & J' & Q). rewrite Q in J. destruct (doc_ok _ _ Hb Hs J) as [Tx' _].
    rewrite <- Q in J. destruct (doc_ok _ _ Hb Hs J) as [Tx A].
    destruct (proj1 (shows_reads E m SM W DN) _ _ _ _ _ Sh P) as (Rd & Lv & A'). split.
    + pose proof (json_to_bin_run E m p j _ [] FO SM Tx J) as R. rewrite (proj1 (jread_complete E m SM) _ _ _ _ Rd 128%nat A Lv) in R. exact R.
    + intros Hh. pose proof (reorderable_run E m p j _ [] FO SM Tx J) as R. destruct (Nat.leb_spec (height j) max_stack_size) as [_|X]; [|unfold max_stack_size in X; lia].
      apply (in_order_reads E m DN) in Rd.
      rewrite (proj1 (rread_complete E m SM) _ _ _ _ Rd (4 * height j + 3)%nat 3%nat A (sound_chain m p SM) (le_n _) (le_n _)) in R. exact R.
Qed.
Print Assumptions C29_bin_json_bin.

(** ** C32: every conversion comes to an end, with bounded stacks *)
(** Every text, whatever it is, and every type of every loaded definition, recursive ones
    included. The only undefined behaviour left is the overflow of an int in the date
    functions, where overflow is taken as undefined (C15). *)
Theorem C32_json_to_bin_ends E a t p m text bin :
  loaded a t p m -> float_lib_ok E -> bytes_ok text -> short text ->
  exists r, json_to_bin E m p text bin r /\ forall w, r = Undef w -> w = "signed overflow"%string /\ ov E = Strict.
Proof.
  intros L FO Hb Hs. pose proof (loaded_sound _ _ _ _ L) as SM. pose proof (loaded_type _ _ _ _ L) as Ty.
  assert (G : forall j w, arrays_ok j -> jread E m 128 true p j = Undef w -> w = "signed overflow"%string /\ ov E = Strict).
  { intros j w A H. exact (jread_safe E m SM 128%nat true p j w Ty A H). }
  destruct (doc_cases text Hb) as [(j & J & T)|(ts & e & T)].
  - destruct (doc_ok _ _ Hb Hs T) as [Tx A]. eexists. split; [exact (json_to_bin_run E m p j text bin FO SM Tx T)|].
    intros w H. apply bind_undef in H as [H|(? & _ & H)]; [|discriminate]. eapply G; eauto.
  - destruct (json_to_bin_malformed E m p text bin ts e FO SM Hb Hs T) as (j & A & _ & r & R & D). exists r. split; [exact R|].
    intros w ->. destruct D as [[x D]|(w' & D & H)]; [discriminate|]. assert (w' = w) by congruence. subst w'. eapply G; eauto.
Qed.
Print Assumptions C32_json_to_bin_ends.
Theorem C32_reorderable_ends E a t p m text bin :
  loaded a t p m -> float_lib_ok E -> bytes_ok text -> short text ->
  exists r, json_to_bin_reorderable E m p text bin r /\ forall w, r = Undef w -> w = "signed overflow"%string /\ ov E = Strict.
Proof.
  intros L FO Hb Hs. pose proof (loaded_sound _ _ _ _ L) as SM. pose proof (loaded_type _ _ _ _ L) as Ty.
  destruct (doc_cases text Hb) as [(j & J & T)|(ts & e & T)].
  - destruct (doc_ok _ _ Hb Hs T) as [Tx A]. eexists. split; [exact (reorderable_run E m p j text bin FO SM Tx T)|].
    intros w H. destruct (Nat.leb (height j) max_stack_size); [|discriminate]. apply bind_undef in H as [H|(? & _ & H)]; [|discriminate].
    pose proof (norm_height j). refine (rread_safe E m SM _ 3%nat true p (norm j) w Ty (sound_chain m p SM) (le_n _) _ H). lia.
  - exists (Err E_unspecific_syntax_error). split; [|intros; discriminate]. unfold json_to_bin_reorderable, json_to_jvalue. now rewrite T.
Qed.
Print Assumptions C32_reorderable_ends.

(** The stack of the ordered converter: at most 129 entries in any state of any run, and at
    most 128 whenever the conversion goes on. *)
Definition jstack (c : jconfig) : list jframe := match c with JCall _ _ s | JLoop s => j_stack s end.
Definition jbound (c : jconfig) : Prop := match c with JCall _ _ s => (List.length (j_stack s) <= 128)%nat | JLoop s => (List.length (j_stack s) <= 129)%nat end.
Lemma nthz_neg {A} (l : list A) i : i < 0 -> nthz l i = None.
Proof. revert i. induction l as [|x l IH]; intros i H; [reflexivity|]. cbn [nthz]. destruct (Z.eqb_spec i 0); [lia|]. apply IH. lia. Qed.
Lemma jobject_bound m fields f rest s c : jobject m fields f rest s = Ok c -> (List.length rest <= 127)%nat \/ (jf_pos f = -1 /\ (List.length rest <= 128)%nat) -> jbound c.
Proof.
  unfold jobject. cbv zeta. intros H Hr. apply bind_Ok in H as ([ended i] & _ & H). destruct ended.
  - destruct (_ =? _); [assert (c = JLoop (set_stack (set_in s i) rest)) by congruence; subst c; cbn [jbound set_stack set_in j_stack]; lia|].
    destruct (nthz _ _) as [[? q]|]; [|discriminate]. apply bind_Ok in H as (x & _ & H). apply bind_Ok in H as (? & _ & H).
    match type of H with Ok ?z = Ok c => assert (c = z) by congruence end. subst c. cbn [jbound j_stack]. lia.
  - apply bind_Ok in H as ([key i'] & _ & H). destruct key.
    + apply bind_Ok in H as (? & _ & H). destruct (nthz _ _) as [[? q]|]; [|discriminate]. apply bind_Ok in H as (? & _ & H).
      match type of H with Ok ?z = Ok c => assert (c = z) by congruence end. subst c. cbn [jbound set_stack set_in j_stack List.length]. lia.
    + destruct Hr as [Hr|[Hp Hr]]; [|rewrite Hp, nthz_neg in H by lia; discriminate]. destruct (nthz _ _) as [[? q]|]; [|discriminate].
      match type of H with Ok ?z = Ok c => assert (c = z) by congruence end. subst c. cbn [jbound set_stack set_in j_stack List.length]. lia.
Qed.
Ltac ok_is c := match goal with H : Ok ?z = Ok c |- _ => assert (c = z) by congruence; subst c; cbn [jbound set_stack set_out set_in j_stack List.length at_pos]; try lia end.
Lemma jcall_bound E m ext p s c : jcall E m ext p s = Ok c -> (List.length (j_stack s) <= 128)%nat -> jbound c.
Proof.
  unfold jcall. intros H Hs. apply bind_Ok in H as (d & _ & H). destruct d as [b| | | |q|q|q|q|fs|fs]; try discriminate H.
  - destruct b; (apply bind_Ok in H as ([? i] & _ & H); apply bind_Ok in H as (o & _ & H); ok_is c).
  - apply bind_Ok in H as ([nl i] & _ & H). destruct nl; ok_is c.
  - ok_is c.
  - apply bind_Ok in H as (i & _ & H). ok_is c.
  - apply bind_Ok in H as (i & _ & H). apply jobject_bound in H; [exact H|]. right. auto.
  - apply bind_Ok in H as (i & _ & H). ok_is c.
Qed.
Lemma jadvance_bound E m f rest s c : jadvance E m f rest s = Ok c -> (List.length (f :: rest) <= 128)%nat -> jbound c.
Proof.
  unfold jadvance. cbn [List.length]. intros H Hs. apply bind_Ok in H as (d & _ & H). destruct d as [b| | | |q|q|q|q|fs|fs]; try discriminate H.
  - apply bind_Ok in H as ([en i] & _ & H). destruct en; [ok_is c|]. apply bind_Ok in H as (? & _ & H). ok_is c.
  - apply jobject_bound in H; [exact H|]. left. lia.
  - apply bind_Ok in H as ([en i] & _ & H). destruct en; [apply bind_Ok in H as (? & _ & H); ok_is c|].
    destruct (_ =? 0).
    + apply bind_Ok in H as ([nm i'] & _ & H). destruct (find_name _ _ _) as [[ix q]|]; [|discriminate]. apply bind_Ok in H as (o & _ & H). ok_is c.
    + destruct (_ =? 1); [|discriminate]. destruct (nthz _ _) as [[? q]|]; [|discriminate]. ok_is c.
Qed.
Theorem C32_json_to_bin_stack E m p text bin c :
  star (jstep E m bin) (JCall true p (JSt (open_json text) [] [] [] false)) c ->
  (List.length (jstack c) <= 129)%nat /\
  (forall c', jstep E m bin c = Ok (inl c') -> (List.length (jstack c) <= 128)%nat).
Proof.
  intros H.
  assert (St : forall c c', jbound c -> jstep E m bin c = Ok (inl c') -> (List.length (jstack c) <= 128)%nat /\ jbound c').
  { clear. intros c c' B H. destruct c as [ext p s|s]; cbn [jstep jbound jstack] in *.
    - split; [exact B|]. apply bind_Ok in H as (x & H & Q). assert (x = c') by congruence. subst x. eapply jcall_bound; eauto.
    - destruct (j_stack s) as [|f rest] eqn:K; [apply bind_Ok in H as (? & _ & H); apply bind_Ok in H as (? & _ & H); discriminate|].
      apply bind_Ok in H as (u & C & H). apply bind_Ok in H as (x & H & Q). assert (x = c') by congruence. subst x.
      unfold check in C. destruct (Nat.leb_spec (List.length (f :: rest)) max_stack_size) as [LE|]; [|discriminate].
      split; [exact LE|]. eapply jadvance_bound; eauto. }
  assert (B : jbound c).
  { assert (B0 : jbound (JCall true p (JSt (open_json text) [] [] [] false))) by (cbn [jbound j_stack List.length]; lia).
    induction H as [|c0 c1 c2 H1 _ IH]; [exact B0|]. apply IH. exact (proj2 (St _ _ B0 H1)). }
  split; [destruct c; cbn [jbound jstack] in *; lia|]. intros c' Hc. exact (proj1 (St _ _ B Hc)).
Qed.
Print Assumptions C32_json_to_bin_stack.

(** The stack of the reorderable converter has no limit of its own, but the document it walks
    is nested at most 128 deep. *)
Definition rstack (c : rconfig) : list rframe := match c with RCall _ _ _ s | RLoop s => r_stack s end.
Fixpoint nested (stk : list rframe) : Prop :=
  match stk with [] => True | f :: rest => (height (rf_value f) + List.length rest <= 128)%nat /\ nested rest end.
Definition rbound (c : rconfig) : Prop :=
  match c with RCall _ _ x s => (height x + List.length (r_stack s) <= 128)%nat /\ nested (r_stack s) | RLoop s => nested (r_stack s) end.
Lemma nested_len stk : nested stk -> (List.length stk <= 128)%nat.
Proof. destruct stk as [|f rest]; cbn [nested List.length]; [lia|]. intros [H _]. pose proof (height_pos (rf_value f)). lia. Qed.
Lemma height_in_arr y l : In y l -> (height y < height (JArr l))%nat.
Proof.
  intros H. assert (F : Forall (fun j => (height j <= height (JArr l) - 1)%nat) l) by (apply height_arr; pose proof (height_pos (JArr l)); lia).
  rewrite Forall_forall in F. specialize (F y H). pose proof (height_pos (JArr l)). lia.
Qed.
Lemma height_in_obj k y l : In (k, y) l -> (height y < height (JObj l))%nat.
Proof.
  intros H. assert (F : Forall (fun j => (height (snd j) <= height (JObj l) - 1)%nat) l) by (apply height_obj; pose proof (height_pos (JObj l)); lia).
  rewrite Forall_forall in F. specialize (F _ H). cbn [snd] in F. pose proof (height_pos (JObj l)). lia.
Qed.
Ltac rk_is c := match goal with H : Ok ?z = Ok c |- _ => assert (c = z) by congruence; subst c; cbn [rbound r_stack List.length nested rf_value] in * end.
Lemma robject_bound m fs f rest s c : robject m fs f rest s = Ok c -> nested (f :: rest) -> rbound c.
Proof.
  unfold robject. cbv zeta. intros H N. destruct (_ =? _); [rk_is c; tauto|].
  destruct (nthz _ _) as [[nm q]|]; [|discriminate]. destruct (rf_value f) as [| | | |?|obj] eqn:V; try discriminate.
  destruct (ofind nm obj) as [y|] eqn:O.
  - apply bind_Ok in H as (? & _ & H). rk_is c. rewrite V in N. destruct N as [N1 N2]. destruct (ofind_In _ _ _ O) as [k' Hk]. apply height_in_obj in Hk.
    split; [lia|]. split; [lia|exact N2].
  - apply bind_Ok in H as (? & _ & H). apply bind_Ok in H as (? & _ & H). rk_is c. now rewrite V in N.
Qed.
Lemma rarray_bound q f rest s c : rarray q f rest s = Ok c -> nested (f :: rest) -> rbound c.
Proof.
  unfold rarray. cbv zeta. intros H N. destruct (rf_value f) as [| | | |l|?] eqn:V; try discriminate. destruct (_ =? _); [rk_is c; tauto|].
  destruct (nthz _ _) as [y|] eqn:Y; [|discriminate]. rk_is c. rewrite V in N. destruct N as [N1 N2]. apply nthz_In in Y. apply height_in_arr in Y.
  split; [lia|]. split; [lia|exact N2].
Qed.
Theorem C32_reorderable_stack E m p text x bin c :
  bytes_ok text -> json_to_jvalue text = Ok x -> star (rstep E m) (RCall true p x (RSt bin [] false)) c -> (List.length (rstack c) <= 128)%nat.
Proof.
  intros Hb J H.
  assert (St : forall c c', rbound c -> rstep E m c = Ok (inl c') -> rbound c').
  { clear. intros c c' B H. destruct c as [ext p x s|s]; cbn [rstep rbound] in *.
    - apply bind_Ok in H as (c0 & H & Q). assert (c0 = c') by congruence. subst c0. clear Q. destruct B as [B1 B2]. unfold rcall in H. apply bind_Ok in H as (d & _ & H).
      assert (Nx : forall t e k, nested (RF t e x k :: r_stack s)) by (intros; cbn [nested rf_value]; split; [lia|exact B2]).
      destruct d as [b| | | |q|q|q|q|fs|fs]; try discriminate H.
      + destruct b; destruct x; try discriminate H; (apply bind_Ok in H as (o & _ & H); rk_is c'; exact B2).
      + destruct x; rk_is c'; auto.
      + rk_is c'. auto.
      + destruct x as [| | | |l|?]; try discriminate. apply bind_Ok in H as (o & _ & H). apply rarray_bound in H; auto.
      + destruct x; try discriminate. apply robject_bound in H; auto.
      + destruct x as [| | | |l|?]; try discriminate. destruct l as [|[] [|? [|? ?]]]; try discriminate. rk_is c'. auto.
    - destruct (r_stack s) as [|f rest] eqn:K; [discriminate|]. apply bind_Ok in H as (c0 & H & Q). assert (c0 = c') by congruence. subst c0. clear Q.
      unfold radvance in H. apply bind_Ok in H as (d & _ & H). destruct d as [b| | | |q|q|q|q|fs|fs]; try discriminate H.
      + eapply rarray_bound; eauto.
      + eapply robject_bound; eauto.
      + destruct (rf_value f) as [| | | |l|?] eqn:V; try discriminate. destruct l as [|[] [|y [|? ?]]]; try discriminate.
        destruct (_ =? 0).
        * destruct (find_name _ _ _) as [[i q]|]; [|discriminate]. apply bind_Ok in H as (o & _ & H). rk_is c'. rewrite V in B. destruct B as [B1 B2].
          pose proof (height_in_arr y [JStr s0; y] ltac:(right; left; reflexivity)). split; [lia|]. split; [lia|exact B2].
        * rk_is c'. tauto. }
  assert (B0 : rbound (RCall true p x (RSt bin [] false))).
  { cbn [rbound r_stack List.length nested]. split; [|exact Logic.I].
    destruct (doc_cases text Hb) as [(j & _ & T)|(ts & e & T)]; [|unfold json_to_jvalue in J; rewrite T in J; discriminate].
    rewrite (json_to_jvalue_spec _ _ T) in J. destruct (Nat.leb_spec (height j) max_stack_size) as [LE|]; [|discriminate].
    assert (x = norm j) by congruence. subst x. pose proof (norm_height j). unfold max_stack_size in LE. lia. }
  assert (B : rbound c) by (induction H as [|c0 c1 c2 H1 _ IH]; [exact B0|apply IH; eapply St; eauto]).
  apply nested_len. destruct c; cbn [rbound rstack] in *; tauto.
Qed.
Print Assumptions C32_reorderable_stack.

(** ** Examples and findings *)
(** Deciding the hypotheses on names. *)
Fixpoint nodupb (l : list bytes) : bool := match l with [] => true | x :: l' => negb (existsb (beq x) l') && nodupb l' end.
Lemma nodupb_spec l : nodupb l = true -> NoDup l.
Proof.
  induction l as [|x l IH]; intros H; [constructor|]. cbn [nodupb] in H. apply andb_true_iff in H as [H1 H2]. constructor; [|auto].
  intros X. assert (B : existsb (beq x) l = true) by (apply existsb_exists; exists x; split; [exact X|apply beq_refl]). rewrite B in H1. discriminate.
Qed.
Definition namesb (m : amap) : bool :=
  forallb (fun e => match snd e with AStruct fs | AVariant fs => nodupb (map fst fs) && forallb (fun f => asciib (fst f)) fs | _ => true end) m.
Lemma namesb_spec m : namesb m = true -> distinct_names m /\ utf8_names m.
Proof.
  intros H. unfold namesb in H. rewrite forallb_forall in H.
  assert (G : forall p fs, afind p m = Some (AStruct fs) \/ afind p m = Some (AVariant fs) -> nodupb (map fst fs) = true /\ forallb (fun f => asciib (fst f)) fs = true).
  { intros p fs [E|E]; apply afind_In in E; specialize (H _ E); cbn [snd] in H; now apply andb_true_iff in H. }
  split; intros p fs E; destruct (G p fs E) as [G1 G2].
  - now apply nodupb_spec.
  - rewrite forallb_forall in G2. apply Forall_forall. intros f Hf. apply utf8_of_ascii, asciib_spec. auto.
Qed.
Lemma doc_texts text j : tokenize text = (tokens j, None) -> forallb is_byteb text && (Z.of_nat (List.length text) <? 2 ^ 30) = true -> texts_ok j.
Proof.
  intros T H. apply andb_true_iff in H as [H1 H2]. apply Z.ltb_lt in H2. refine (proj1 (doc_ok text j _ H2 T)). now apply bytes_okb_spec.
Qed.
Lemma no_floats_ok : float_lib_ok no_floats. Proof. intros n s x H. discriminate H. Qed.
Definition tail_value : aval := AVStruct [AVBase B_int8 (VInt 7); AVList [AVBase B_uint64 (VInt 9)]].
Definition tail_doc : jv := JObj [(str "x", JNum (str "7")); (str "y", JArr [JStr (str "9")])].
Example C29_hypotheses :
  loaded ex_abi (str "tail") (str "tail") tail_table /\ distinct_names tail_table /\ utf8_names tail_table /\ trailing_extensions tail_table /\
  shows no_floats tail_table 128 true (str "tail") tail_value tail_doc /\ plain no_floats tail_value /\ settled tail_table [] (str "tail") tail_value /\
  short (print tail_doc) /\ (height tail_doc <= 128)%nat /\
  json_to_bin no_floats tail_table (str "tail") (str "{ ""x"" : ""7"", ""y"":[9]}") [1; 2] (Ok ([1; 2] ++ [7; 1; 9; 0; 0; 0; 0; 0; 0; 0])) /\
  json_to_bin_reorderable no_floats tail_table (str "tail") (str "{""more"":{}, ""y"":[9], ""x"":7}") [] (Ok [7; 1; 9; 0; 0; 0; 0; 0; 0; 0]).
Proof.
  destruct C28_hypotheses as (L & _ & Sh & _). destruct (namesb_spec tail_table ltac:(vm_compute; reflexivity)) as [N1 N2].
  split; [exact L|]. split; [exact N1|]. split; [exact N2|]. split; [apply trailingb_spec; vm_compute; reflexivity|]. split; [exact Sh|]. split; [|split; [|split; [|split; [|split]]]].
  - constructor. constructor; [constructor; exact Logic.I|]. constructor; [|constructor]. constructor. constructor; [|constructor]. constructor. exact Logic.I.
  - eapply settled_struct; [reflexivity|]. constructor; [intros [q Q]; discriminate Q|intros Q; discriminate Q|]. constructor.
    + intros _. vm_compute. discriminate.
    + intros _. eapply settled_ext; [reflexivity|]. constructor.
    + constructor.
  - vm_compute. reflexivity.
  - vm_compute. lia.
  - assert (T : tokenize (str "{ ""x"" : ""7"", ""y"":[9]}") = (tokens (JObj [(str "x", JStr (str "7")); (str "y", JArr [JNum (str "9")])]), None)) by (vm_compute; reflexivity).
    pose proof (json_to_bin_run no_floats tail_table (str "tail") _ _ [1; 2] no_floats_ok (loaded_sound _ _ _ _ L)
      (doc_texts _ _ T eq_refl) T) as R.
    assert (V : jread no_floats tail_table 128 true (str "tail") (JObj [(str "x", JStr (str "7")); (str "y", JArr [JNum (str "9")])]) = Ok tail_value) by (vm_compute; reflexivity).
    rewrite V in R. exact R.
  - assert (T : tokenize (str "{""more"":{}, ""y"":[9], ""x"":7}") = (tokens (JObj [(str "more", JObj []); (str "y", JArr [JNum (str "9")]); (str "x", JNum (str "7"))]), None)) by (vm_compute; reflexivity).
    pose proof (reorderable_run no_floats tail_table (str "tail") _ _ [] no_floats_ok (loaded_sound _ _ _ _ L)
      (doc_texts _ _ T eq_refl) T) as R.
    match type of R with json_to_bin_reorderable _ _ _ _ _ ?r => assert (V : r = Ok [7; 1; 9; 0; 0; 0; 0; 0; 0; 0]) by (vm_compute; reflexivity) end.
    rewrite V in R. exact R.
Qed.

(** Without trailing extensions the ordered converter drops required fields: at the end of an
    object only the next field is asked for being an extension. *)
Definition gap_abi : abi_def :=
  AbiDef (str "eosio::abi/1.1") [] [StructDef (str "s") [] [FieldDef (str "a") (str "int8$"); FieldDef (str "b") (str "uint32")]] [] [] [] [] [] [].
Definition gap_table : amap := Eval vm_compute in
  match (let* c := convert gap_abi in abi_get_type c (str "s")) with Ok (_, c) => abi_types c | _ => [] end.
Theorem C31_gap_refuted :
  loaded gap_abi (str "s") (str "s") gap_table /\ ~ extension_type gap_table (str "uint32") /\
  afind (str "s") gap_table = Some (AStruct [(str "a", str "int8$"); (str "b", str "uint32")]) /\
  json_to_bin no_floats gap_table (str "s") (str "{}") [] (Ok []).
Proof.
  assert (L : loaded gap_abi (str "s") (str "s") gap_table) by (apply loaded_run; vm_compute; reflexivity).
  split; [exact L|]. split; [intros [q Q]; discriminate Q|]. split; [reflexivity|].
  assert (T : tokenize (str "{}") = (tokens (JObj []), None)) by (vm_compute; reflexivity).
  pose proof (json_to_bin_run no_floats gap_table (str "s") _ _ [] no_floats_ok (loaded_sound _ _ _ _ L)
    (doc_texts _ _ T eq_refl) T) as R.
  match type of R with json_to_bin _ _ _ _ _ ?r => assert (V : r = Ok []) by (vm_compute; reflexivity) end. rewrite V in R. exact R.
Qed.
Print Assumptions C31_gap_refuted.
(** The reorderable converter does not reject unknown fields (the ordered one does). *)
Theorem C31_unknown_refuted : exists m,
  loaded ex_abi (str "tail") (str "tail") m /\
  json_to_bin_reorderable no_floats m (str "tail") (str "{""x"":7,""z"":1}") [] (Ok [7]) /\
  json_to_bin no_floats m (str "tail") (str "{""x"":7,""z"":1}") [] (Err E_expected_field).
Proof.
  exists tail_table. destruct C28_hypotheses as (L & _). split; [exact L|].
  assert (T : tokenize (str "{""x"":7,""z"":1}") = (tokens (JObj [(str "x", JNum (str "7")); (str "z", JNum (str "1"))]), None)) by (vm_compute; reflexivity).
  pose proof (doc_texts _ _ T eq_refl) as Tx. split.
  - pose proof (reorderable_run no_floats tail_table (str "tail") _ _ [] no_floats_ok (loaded_sound _ _ _ _ L) Tx T) as R.
    match type of R with json_to_bin_reorderable _ _ _ _ _ ?r => assert (V : r = Ok [7]) by (vm_compute; reflexivity) end. rewrite V in R. exact R.
  - pose proof (json_to_bin_run no_floats tail_table (str "tail") _ _ [] no_floats_ok (loaded_sound _ _ _ _ L) Tx T) as R.
    match type of R with json_to_bin _ _ _ _ _ ?r => assert (V : r = Err E_expected_field) by (vm_compute; reflexivity) end. rewrite V in R. exact R.
Qed.
Print Assumptions C31_unknown_refuted.
(** Two orders of the same members. *)
Example C30_hypotheses :
  reordered (JObj [(str "x", JNum (str "7")); (str "y", JObj [(str "a", JNull); (str "b", JNull)])])
            (JObj [(str "y", JObj [(str "b", JNull); (str "a", JNull)]); (str "x", JNum (str "7"))]).
Proof.
  eapply reord_obj; [apply nodupb_spec; vm_compute; reflexivity| |apply perm_swap].
  constructor; [split; [reflexivity|apply reord_same]|]. constructor; [|constructor]. split; [reflexivity|]. cbn [snd].
  eapply reord_obj; [apply nodupb_spec; vm_compute; reflexivity| |apply perm_swap].
  constructor; [split; [reflexivity|apply reord_same]|]. constructor; [split; [reflexivity|apply reord_same]|]. constructor.
Qed.
