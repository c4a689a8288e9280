(** * CapiPtrFacts: proofs for C55 *)
From Verif Require Import Base Stream TypedBin Hex Name Json Abi AbiScalar AbiBin AbiJson AbiDef Capi CapiSpec CapiFacts CapiPtr CapiPtrSpec.

(** ** Reading arguments *)
Lemma existsb_nul b : In 0 b -> existsb (Z.eqb 0) b = true.
Proof. intros H. apply existsb_exists. exists 0. auto. Qed.
Lemma text_of_proper m p : is_text m p -> text_of m p = Some (text_arg (text_at m p)).
Proof.
  destruct p as [p|]; [|reflexivity]. intros (b & C & N). cbn [text_of text_at text_arg]. unfold c_string. now rewrite C, (existsb_nul b N).
Qed.
Lemma data_of_proper m p n : is_data m p n -> data_of m p n = Some (data_at m p n).
Proof.
  destruct p as [p|]; [|reflexivity]. intros (b & C & N). unfold data_of, data_at, text_at. cbn [option_map]. rewrite C.
  destruct (Nat.leb_spec n (List.length b)); [reflexivity|lia].
Qed.
Lemma cstr_snoc b : cstr (b ++ [0]) = cstr b.
Proof. induction b as [|c b IH]; [reflexivity|]. cbn [app cstr]. destruct (c =? 0); [reflexivity|now rewrite IH]. Qed.
Lemma existsb_snoc b : existsb (Z.eqb 0) (b ++ [0]) = true.
Proof. apply existsb_nul, in_app_iff. right. now left. Qed.
Lemma see_string m p b : contents m p = Some (b ++ [0]) -> c_string m p = Some (cstr b).
Proof. intros C. unfold c_string. now rewrite C, existsb_snoc, cstr_snoc. Qed.

Lemma text_of_contents m m' p : (forall q, p = Some q -> contents m' q = contents m q) -> text_of m' p = text_of m p.
Proof. destruct p as [p|]; [|reflexivity]. intros H. cbn [text_of]. unfold c_string. now rewrite (H p eq_refl). Qed.
Lemma data_of_contents m m' p n : (forall q, p = Some q -> contents m' q = contents m q) -> data_of m' p n = data_of m p n.
Proof. destruct p as [p|]; [|reflexivity]. intros H. cbn [data_of]. now rewrite (H p eq_refl). Qed.
Lemma contents_last m l p : contents (set_last m l) p = contents m p.
Proof. destruct p; reflexivity. Qed.
(** A lookup in an abi does not touch the names of actions and tables. *)
Definition same_names (a a' : abi) : Prop := action_types a' = action_types a /\ table_types a' = table_types a.
Lemma get_type_names a t p a' : abi_get_type a t = Ok (p, a') -> same_names a a'.
Proof. unfold abi_get_type. intros H. apply bind_Ok in H as ([q u] & _ & H). split; assert (a' = Abi (action_types a) (table_types a) u) as -> by congruence; reflexivity. Qed.
Lemma looked_up_names a t : same_names a (abi_looked_up a t).
Proof. split; reflexivity. Qed.
Lemma contents_update m k a a' p : cfind k (abis m) = Some a -> same_names a a' -> contents (set_abis m (update k a' (abis m))) p = contents m p.
Proof.
  intros F [A T]. destruct p as [b|g|g|g|k' n|k' n]; cbn [contents set_abis abis gbuf buffer gstr rstr gbin rbin]; try reflexivity;
    rewrite cfind_update, F; destruct (Z.eqb_spec k' k) as [->|]; try reflexivity; now rewrite F, ?A, ?T.
Qed.
Lemma contents_bin m b p : (forall g, p <> Bin_bytes g) -> contents (set_bin m b) p = contents m p.
Proof. intros N. destruct p; try reflexivity. now destruct (N g). Qed.

Lemma reading_some {A} (b : A) (f : A -> pbody) : reading (Some b) f = f b.
Proof. reflexivity. Qed.

(** ** The pointer level and the text level *)
Definition seen_end (m : memory) (e : pended) : ended :=
  match e with PValue r => Value (seen m r) | PThrows t => Throws t | PUndef w => Undef_ w end.
Definition sim (p : memory -> pended -> Prop) (b : context -> ended -> Prop) : Prop :=
  (forall m' e, p m' e -> b (view m') (seen_end m' e)) /\
  (forall c' e, b c' e -> exists m' e', p m' e' /\ c' = view m' /\ e = seen_end m' e').
Lemma sim_leaf (M : memory) (PE : pended) (C : context) (Ee : ended) : C = view M -> Ee = seen_end M PE ->
  sim (fun m' e => m' = M /\ e = PE) (fun c' e => c' = C /\ e = Ee).
Proof. intros -> ->. split; [intros m' e [-> ->]; auto|]. intros c' e [-> ->]. exists M, PE. auto. Qed.
Lemma sim_ex {Q} (conv : Q -> Prop) p b : (forall q, sim (p q) (b q)) ->
  sim (fun m' e => exists q, conv q /\ p q m' e) (fun c' e => exists q, conv q /\ b q c' e).
Proof.
  intros S. split.
  - intros m' e (q & C & P). exists q. split; [exact C|]. now apply (S q).
  - intros c' e (q & C & B). apply (S q) in B as (m' & e' & P & X). exists m', e'. split; [|exact X]. eauto.
Qed.
Lemma sim_ext (p p' : memory -> pended -> Prop) b : (forall m e, p m e <-> p' m e) -> sim p b -> sim p' b.
Proof. intros X [A B]. split; [intros m e H; apply A; now apply X|]. intros c e H. destruct (B c e H) as (m & e' & P & Y). exists m, e'. split; [now apply X|exact Y]. Qed.
Ltac leaf := apply sim_leaf; reflexivity.

Lemma sim_load k d m : sim (pload k d m) (load k d (view m)).
Proof. unfold pload, load. destruct (convert d); leaf. Qed.
Lemma sim_set_abi E k t m : is_text m t -> sim (pset_abi_body E k t m) (set_abi_body E k (text_arg (text_at m t)) (view m)).
Proof.
  intros T. unfold pset_abi_body, set_abi_body. rewrite (text_of_contents m _ t) by (intros; apply contents_last). rewrite (text_of_proper _ _ T). rewrite reading_some; cbv beta.
  destruct (abi_def_from_json _ _) as [[d s]|x|w]; [|leaf|leaf]. destruct (check_abi_version _); [|leaf]. apply (sim_load k d (set_last m _)).
Qed.
Lemma sim_set_abi_bin k d n m : is_data m d n -> sim (pset_abi_bin_body k d n m) (set_abi_bin_body k (data_at m d n) (view m)).
Proof.
  intros T. unfold pset_abi_bin_body, set_abi_bin_body. rewrite (data_of_contents m _ d) by (intros; apply contents_last). rewrite (data_of_proper _ _ _ T). rewrite reading_some; cbv beta.
  destruct (data_at m d n) as [[|b0 b]|]; [leaf| |leaf]. destruct (from_bin _ _ _ _) as [[v s]|x|w]; [|leaf|leaf].
  destruct v; try leaf. destruct (check_abi_version _); [|leaf]. destruct (abi_def_from_bin _) as [[df s']|x|w]; [|leaf|leaf]. apply (sim_load k df (set_last m _)).
Qed.
Lemma sim_get_type field place kind k n m :
  (forall t, match cfind k (abis m) with Some a => zfind n (field a) | None => None end = Some t -> contents m (place k n) = Some (t ++ [0])) ->
  sim (pget_type_body field place kind k n m) (get_type_body field kind k n (view m)).
Proof.
  intros P. unfold pget_type_body, get_type_body. cbn [view contracts]. destruct (cfind k (abis m)) as [a|]; [|leaf]. destruct (zfind n (field a)) as [t|] eqn:Z0; [|leaf].
  apply sim_leaf; [reflexivity|]. cbn [seen_end seen]. now rewrite (see_string m _ t (P t eq_refl)).
Qed.
Lemma sim_json conv k t j m : is_text m t -> is_text m j -> from_bin_data j = false ->
  sim (pjson_body conv k t j m) (json_body conv k (text_arg (text_at m t)) (text_arg (text_at m j)) (view m)).
Proof.
  intros T J B. unfold pjson_body, json_body. cbn [set_last abis with_error view contracts].
  destruct (cfind k (abis m)) as [a|] eqn:F; [|leaf].
  rewrite (text_of_contents m _ t) by (intros; apply contents_last). rewrite (text_of_proper _ _ T). rewrite reading_some; cbv beta.
  destruct (abi_get_type a (text_arg (text_at m t))) as [[p a']|x|w] eqn:G; [|leaf|leaf].
  rewrite (text_of_contents m _ j), (text_of_proper _ _ J).
  2:{ intros q ->. rewrite contents_bin by (intros g ->; discriminate). rewrite <- (contents_last m (str "json parse error") q).
      apply (contents_update (set_last m (str "json parse error")) k a a' q); [exact F|eauto using get_type_names]. }
  rewrite reading_some; cbv beta. apply sim_ex. intros [b|x|w]; leaf.
Qed.
Lemma sim_bin_to_json E k t d n m : is_text m t -> is_data m d n ->
  sim (pbin_to_json_body E k t d n m) (bin_to_json_body E k (text_arg (text_at m t)) (data_at m d n) (view m)).
Proof.
  intros T D. unfold pbin_to_json_body, bin_to_json_body. cbn [set_last abis with_error view contracts].
  destruct (cfind k (abis m)) as [a|] eqn:F; [|leaf].
  rewrite (text_of_contents m _ t) by (intros; apply contents_last). rewrite (text_of_proper _ _ T). rewrite reading_some; cbv beta.
  destruct (abi_get_type a (text_arg (text_at m t))) as [[p a']|x|w] eqn:G; [|leaf|leaf].
  rewrite (data_of_contents m _ d), (data_of_proper _ _ _ D).
  2:{ intros q ->. rewrite <- (contents_last m (str "binary decode error") q).
      apply (contents_update (set_last m (str "binary decode error")) k a a' q); [exact F|eauto using get_type_names]. }
  rewrite reading_some; cbv beta. apply sim_ex. intros [[text rest]|x|w]; [|leaf|leaf]. destruct (beq rest []); [|leaf].
  apply sim_leaf; [reflexivity|]. cbn [seen_end seen]. erewrite see_string; [reflexivity|]. cbn [contents set_str gstr rstr]. now rewrite Nat.eqb_refl.
Qed.

(** ** Whole calls *)
Definition csim (p : option memory -> poutcome -> Prop) (b : option context -> outcome -> Prop) : Prop :=
  (forall x' o, p x' o -> exists m', x' = Some m' /\ b (Some (view m')) (seen_outcome m' o)) /\
  (forall x' o, b x' o -> exists m' o', p (Some m') o' /\ x' = Some (view m') /\ o = seen_outcome m' o').
Lemma handle_sim m v v' p b : (forall m', seen m' v = v') -> sim (p m) (b (view m)) ->
  csim (phandle (Some m) v p) (handle_exceptions (Some (view m)) v' b).
Proof.
  intros V [A B]. split.
  - intros x' o (m' & e & P & H). apply A in P. destruct e as [r|t|w]; destruct H as [-> ->]; cbn [seen_end] in P.
    + exists m'. split; [reflexivity|]. exists (view m'), (Value (seen m' r)). auto.
    + exists (set_error m' (cstr t)). split; [reflexivity|]. exists (view m'), (Throws t). split; [exact P|]. cbn [seen_outcome]. rewrite V. auto.
    + exists m'. split; [reflexivity|]. exists (view m'), (Undef_ w). auto.
  - intros x' o (c' & e & P & H). apply B in P as (m' & e' & P & -> & ->). destruct e' as [r|t|w]; destruct H as [-> ->].
    + exists m', (PReturns r). split; [|auto]. exists m', (PValue r). auto.
    + exists (set_error m' (cstr t)), (PReturns v). split; [exists m', (PThrows t); auto|]. cbn [seen_outcome]. rewrite V. auto.
    + exists m', (PUndefined w). split; [|auto]. exists m', (PUndef w). auto.
Qed.
Lemma nested_sim (f : option memory -> option memory -> poutcome -> Prop) g m :
  csim (f (Some m)) (g (Some (view m))) -> sim (pnested f m) (nested g (view m)).
Proof.
  intros [A B]. split.
  - intros m' e (o & F & ->). destruct (A _ _ F) as (m1 & [= <-] & G). exists (seen_outcome m' o). split; [exact G|]. now destruct o.
  - intros c' e (o & G & ->). destruct (B _ _ G) as (m' & o' & F & [= ->] & ->). exists m', (match o' with PReturns r => PValue r | PUndefined w => PUndef w end).
    split; [exists o'; auto|]. split; [reflexivity|]. now destruct o'.
Qed.
Lemma plain_sim m r r' : seen m r = r' ->
  csim (fun x' o => x' = Some m /\ o = PReturns r) (fun x' o => x' = Some (view m) /\ o = Returns r').
Proof.
  intros <-. split; [intros x' o [-> ->]; exists m; auto|]. intros x' o [-> ->]. exists m, (PReturns r). auto.
Qed.
Lemma outside_data b : data_at created (Some (Outside b)) (List.length b) = Some b.
Proof. unfold data_at, text_at. cbn [contents option_map]. now rewrite firstn_all. Qed.
Lemma call_sim E m f : proper m f -> csim (pcall E (Some m) f) (call E (Some (view m)) (copied m f)).
Proof.
  assert (OD : forall m b, is_data m (Some (Outside b)) (List.length b)) by (intros m0 b; exists b; split; [reflexivity|lia]).
  assert (OE : forall m b, data_at m (Some (Outside b)) (List.length b) = Some b) by (intros m0 b; unfold data_at, text_at; cbn [contents option_map]; now rewrite firstn_all).
  assert (SS : forall s, c_string (set_str m s) (Str_text (gstr (set_str m s))) = Some (cstr s)).
  { intros s. apply see_string. cbn [contents set_str gstr rstr]. now rewrite Nat.eqb_refl. }
  destruct f; cbn [pcall call copied proper]; intros P.
  - apply plain_sim. cbn [seen view last_error]. destruct (last m); (erewrite see_string; [reflexivity|]); cbn [contents]; [reflexivity|now rewrite Nat.eqb_refl].
  - now apply plain_sim.
  - apply plain_sim. cbn [seen contents]. now rewrite Nat.eqb_refl.
  - apply handle_sim; [reflexivity|]. split.
    + intros m' e [-> ->]. split; [reflexivity|]. cbn [seen_end seen]. now rewrite SS.
    + intros c' e [-> ->]. eexists _, _. split; [split; reflexivity|]. split; [reflexivity|]. cbn [seen_end seen]. now rewrite SS.
  - unfold pcall. rewrite (text_of_proper _ _ P). now apply plain_sim.
  - apply handle_sim; [reflexivity|]. split.
    + intros m' e [-> ->]. split; [reflexivity|]. cbn [seen_end seen]. now rewrite SS.
    + intros c' e [-> ->]. eexists _, _. split; [split; reflexivity|]. split; [reflexivity|]. cbn [seen_end seen]. now rewrite SS.
  - apply handle_sim; [reflexivity|]. now apply sim_set_abi.
  - apply handle_sim; [reflexivity|]. now apply sim_set_abi_bin.
  - apply handle_sim; [reflexivity|]. rewrite (text_of_proper _ _ P). rewrite reading_some; cbv beta. destruct (unhex _) as [b|]; [|leaf].
    apply nested_sim. unfold pset_abi_bin_call, set_abi_bin_call. apply handle_sim; [reflexivity|]. pose proof (sim_set_abi_bin contract _ _ m (OD m b)) as S. rewrite OE in S. exact S.
  - apply handle_sim; [reflexivity|]. apply sim_get_type. intros t H. cbn [contents]. destruct (cfind contract (abis m)); [|discriminate]. now rewrite H.
  - apply handle_sim; [reflexivity|]. apply sim_get_type. intros t H. cbn [contents]. destruct (cfind contract (abis m)); [|discriminate]. now rewrite H.
  - apply handle_sim; [reflexivity|]. now apply sim_json.
  - apply handle_sim; [reflexivity|]. now apply sim_json.
  - apply handle_sim; [reflexivity|]. now apply sim_bin_to_json.
  - apply handle_sim; [reflexivity|]. destruct P as [Pt Ph]. rewrite (text_of_proper _ _ Ph). rewrite reading_some; cbv beta. destruct (unhex _) as [b|]; [|leaf].
    apply nested_sim. unfold pbin_to_json_call, bin_to_json_call. apply handle_sim; [reflexivity|]. pose proof (sim_bin_to_json E contract _ _ _ m Pt (OD m b)) as S. rewrite OE in S. exact S.
Qed.

(** ** What a call leaves alone *)
Definition is_name (p : pointer) : bool := match p with Action_name _ _ | Table_name _ _ => true | _ => false end.
Record effect (txt dat ok : bool) (m m' : memory) : Prop := {
  e_gbuf : (gbuf m <= gbuf m')%nat; e_gstr : (gstr m <= gstr m')%nat; e_gbin : (gbin m <= gbin m')%nat;
  e_buf : ok = true -> gbuf m' = gbuf m /\ buffer m' = buffer m;
  e_str : txt = false -> gstr m' = gstr m /\ rstr m' = rstr m;
  e_bin : dat = false -> gbin m' = gbin m /\ rbin m' = rbin m;
  e_newstr : ok = true -> txt = true -> (gstr m < gstr m')%nat;
  e_newbin : ok = true -> dat = true -> (gbin m < gbin m')%nat;
  e_names : forall p b, is_name p = true -> contents m p = Some b -> contents m' p = Some b }.
Definition beff (txt dat : bool) (m : memory) (p : memory -> pended -> Prop) : Prop :=
  forall m' e, p m' e -> match e with PValue r => effect txt dat (negb (fails r)) m m' | PThrows _ => effect txt dat false m m' | PUndef _ => True end.
Lemma names_same m m' p b : abis m' = abis m -> is_name p = true -> contents m p = Some b -> contents m' p = Some b.
Proof. intros A N. destruct p; try discriminate; cbn [contents]; now rewrite A. Qed.
Lemma names_update m m' k a a' p b : cfind k (abis m) = Some a -> same_names a a' -> abis m' = update k a' (abis m) -> is_name p = true ->
  contents m p = Some b -> contents m' p = Some b.
Proof.
  intros F S A N C. rewrite <- (contents_update m k a a' p F S) in C. destruct p; try discriminate; cbn [contents set_abis abis] in *; now rewrite A.
Qed.
Lemma names_insert m m' k a p b : abis m' = insert k a (abis m) -> is_name p = true -> contents m p = Some b -> contents m' p = Some b.
Proof.
  intros A N C. destruct p as [| | | |k' n|k' n]; try discriminate; cbn [contents] in *; rewrite A, cfind_insert; destruct (Z.eqb_spec k' k) as [->|]; try exact C;
    destruct (cfind k (abis m)); [exact C|discriminate|exact C|discriminate].
Qed.
Ltac basic := constructor; cbn; try lia; try discriminate; try (intros; split; reflexivity); try (intros; lia); try (intros; discriminate); try (let p := fresh in let b := fresh in intros p b; now apply names_same).
Lemma eff_load k d m l : beff false false m (pload k d (set_last m l)).
Proof.
  intros m' e. unfold pload. destruct (convert d); intros [-> ->]; cbn [negb fails]; [|basic|exact I].
  basic. intros p b N. now apply (names_insert m _ k a).
Qed.
Lemma eff_set_abi E k t m : beff false false m (pset_abi_body E k t m).
Proof.
  intros m' e. unfold pset_abi_body. destruct (text_of _ t) as [x|]; [rewrite reading_some; cbv beta|intros [-> ->]; exact I].
  destruct (abi_def_from_json _ _) as [[d s]|y|w]; [|intros [-> ->]; basic|intros [-> ->]; exact I].
  destruct (check_abi_version _); [apply eff_load|]. intros [-> ->]. cbn [negb fails]. basic.
Qed.
Lemma eff_set_abi_bin k d n m : beff false false m (pset_abi_bin_body k d n m).
Proof.
  intros m' e. unfold pset_abi_bin_body. destruct (data_of _ d n) as [x|]; [rewrite reading_some; cbv beta|intros [-> ->]; exact I].
  destruct x as [[|b0 b]|]; [intros [-> ->]; basic| |intros [-> ->]; basic].
  destruct (from_bin _ _ _ _) as [[v s]|y|w]; [|intros [-> ->]; basic|intros [-> ->]; exact I].
  destruct v; try (intros [-> ->]; exact I). destruct (check_abi_version _); [|intros [-> ->]; basic].
  destruct (abi_def_from_bin _) as [[df s']|y|w]; [|intros [-> ->]; basic|intros [-> ->]; exact I]. apply eff_load.
Qed.
Lemma eff_get_type field place kind k n m : beff false false m (pget_type_body field place kind k n m).
Proof.
  intros m' e [-> ->]. destruct (cfind _ _) as [a|]; [|basic]. destruct (zfind _ _); cbn [negb fails]; basic.
Qed.
Lemma eff_json conv k t j m : beff false true m (pjson_body conv k t j m).
Proof.
  intros m' e. unfold pjson_body. cbn [set_last abis]. destruct (cfind k (abis m)) as [a|] eqn:F; [|intros [-> ->]; basic].
  destruct (text_of _ t) as [x|]; [rewrite reading_some; cbv beta|intros [-> ->]; exact I].
  destruct (abi_get_type a x) as [[p a']|y|w] eqn:G; [|intros [-> ->]; basic; intros p b N; now apply (names_update m _ k a _ p b F (looked_up_names a x))|intros [-> ->]; exact I].
  destruct (text_of _ j) as [z|]; [rewrite reading_some; cbv beta|intros [-> ->]; exact I].
  intros (q & _ & H). pose proof (get_type_names _ _ _ _ G) as S.
  destruct q; destruct H as [-> ->]; [| |exact I]; cbn [negb fails]; basic; intros p' b' N; now apply (names_update m _ k a a' p' b' F S).
Qed.
Lemma eff_bin_to_json E k t d n m : beff true false m (pbin_to_json_body E k t d n m).
Proof.
  intros m' e. unfold pbin_to_json_body. cbn [set_last abis]. destruct (cfind k (abis m)) as [a|] eqn:F; [|intros [-> ->]; basic].
  destruct (text_of _ t) as [x|]; [rewrite reading_some; cbv beta|intros [-> ->]; exact I].
  destruct (abi_get_type a x) as [[p a']|y|w] eqn:G; [|intros [-> ->]; basic; intros p b N; now apply (names_update m _ k a _ p b F (looked_up_names a x))|intros [-> ->]; exact I].
  destruct (data_of _ d n) as [z|]; [rewrite reading_some; cbv beta|intros [-> ->]; exact I].
  intros (q & _ & H). pose proof (get_type_names _ _ _ _ G) as S.
  destruct q as [[text rest]| |]; destruct H as [-> ->]; [destruct (beq rest [])| |exact I]; cbn [negb fails]; basic; intros p' b' N; now apply (names_update m _ k a a' p' b' F S).
Qed.
Lemma eff_handle txt dat m v p x' r : fails v = true -> beff txt dat m (p m) -> phandle (Some m) v p x' (PReturns r) ->
  exists m', x' = Some m' /\ effect txt dat (negb (fails r)) m m'.
Proof.
  intros V B (m' & e & P & H). apply B in P. destruct e as [r'|t|w]; destruct H as [-> H]; [| |discriminate].
  - assert (r = r') as -> by congruence. eauto.
  - assert (r = v) as -> by congruence. rewrite V. cbn [negb]. eexists. split; [reflexivity|]. destruct P as [P1 P2 P3 P4 P5 P6 P7 P8 P9].
    constructor; cbn [set_error gbuf gstr gbin buffer rstr rbin abis]; try lia; auto; try discriminate.
    intros q b N C. specialize (P9 q b N C). destruct q; try discriminate; exact P9.
Qed.
Lemma eff_nested txt dat m v p : fails v = true -> beff txt dat m (p m) -> beff txt dat m (pnested (fun x => phandle x v p) m).
Proof.
  intros V B m' e (o & H & ->). destruct o as [r|w]; [|exact I]. destruct (eff_handle txt dat m v p _ _ V B H) as (m1 & [= <-] & X). exact X.
Qed.
Lemma eff_reading {A} txt dat m (x : option A) f : (forall b, beff txt dat m (f b m)) -> beff txt dat m (reading x f m).
Proof. intros B. destruct x as [b|]; [apply B|]. intros m' e [-> ->]. exact I. Qed.
Lemma call_effects E m f m' r : pcall E (Some m) f (Some m') (PReturns r) -> effect (makes_text f) (makes_data f) (negb (fails r)) m m'.
Proof.
  assert (H0 : forall txt dat v p, fails v = true -> beff txt dat m (p m) -> phandle (Some m) v p (Some m') (PReturns r) -> effect txt dat (negb (fails r)) m m').
  { intros txt dat v p V B H. destruct (eff_handle txt dat m v p _ _ V B H) as (m1 & [= <-] & X). exact X. }
  assert (RF : effect false false (negb (fails r)) m m) by (constructor; auto; discriminate).
  destruct f; cbn [pcall makes_text makes_data]; try (intros [[= ->] _]; exact RF).
  - apply H0; [reflexivity|]. intros m1 e [-> ->]. cbn [negb fails]. basic.
  - apply H0; [reflexivity|]. intros m1 e [-> ->]. cbn [negb fails]. basic.
  - apply H0; [reflexivity|]. apply eff_set_abi.
  - apply H0; [reflexivity|]. apply eff_set_abi_bin.
  - apply H0; [reflexivity|]. apply eff_reading. intros b. destruct (unhex b) as [z|]; [|intros m1 e [-> ->]; basic].
    apply (eff_nested false false m (P_bool false) (pset_abi_bin_body _ _ _)); [reflexivity|]. apply eff_set_abi_bin.
  - apply H0; [reflexivity|]. apply eff_get_type.
  - apply H0; [reflexivity|]. apply eff_get_type.
  - apply H0; [reflexivity|]. apply eff_json.
  - apply H0; [reflexivity|]. apply eff_json.
  - apply H0; [reflexivity|]. apply eff_bin_to_json.
  - apply H0; [reflexivity|]. apply eff_reading. intros b. destruct (unhex b) as [z|]; [|intros m1 e [-> ->]; basic].
    apply (eff_nested true false m (P_text None) (pbin_to_json_body E _ _ _ _)); [reflexivity|]. apply eff_bin_to_json.
Qed.

(** The pointer a call returns. *)
Definition own (f : pop) (m : memory) (p : pointer) : Prop :=
  match f with
  | P_get_error => (exists l, p = Outside (l ++ [0])) \/ p = Error_text (gbuf m)
  | P_get_bin_data => p = Bin_bytes (gbin m)
  | P_get_bin_hex | P_name_to_string _ | P_bin_to_json _ _ _ _ | P_hex_to_json _ _ _ => p = Str_text (gstr m)
  | P_get_type_for_action k n => p = Action_name k n /\ contents m p <> None
  | P_get_type_for_table k n => p = Table_name k n /\ contents m p <> None
  | _ => False
  end.
Lemma bin_to_json_pointer E k t d n m m' e : pbin_to_json_body E k t d n m m' e ->
  match e with PValue r => forall p, pointer_of r = Some p -> p = Str_text (gstr m') | _ => True end.
Proof.
  unfold pbin_to_json_body. destruct (cfind _ _) as [a|]; [|intros [-> ->]; discriminate].
  destruct (text_of _ t) as [x|]; [rewrite reading_some; cbv beta|intros [-> ->]; exact I].
  destruct (abi_get_type a x) as [[p a']|y|w]; [|intros [-> ->]; exact I|intros [-> ->]; exact I].
  destruct (data_of _ d n) as [z|]; [rewrite reading_some; cbv beta|intros [-> ->]; exact I].
  intros (q & _ & H). destruct q as [[text rest]| |]; destruct H as [-> ->]; [destruct (beq rest [])| |]; try exact I. cbn [pointer_of]. congruence.
Qed.
Lemma handle_value m v p x' r : phandle (Some m) v p x' (PReturns r) -> r = v \/ exists m', x' = Some m' /\ p m m' (PValue r).
Proof. intros (m' & e & P & H). destruct e; destruct H as [-> H]; [right|left; congruence|discriminate]. assert (r0 = r) as <- by congruence. eauto. Qed.
Lemma json_no_pointer conv k t j m m' e : pjson_body conv k t j m m' e -> match e with PValue r => pointer_of r = None | _ => True end.
Proof.
  unfold pjson_body. destruct (cfind _ _) as [a|]; [|intros [-> ->]; reflexivity].
  destruct (text_of _ t) as [x|]; [rewrite reading_some; cbv beta|intros [-> ->]; exact I].
  destruct (abi_get_type a x) as [[p a']|y|w]; [|intros [-> ->]; exact I|intros [-> ->]; exact I].
  destruct (text_of _ j) as [z|]; [rewrite reading_some; cbv beta|intros [-> ->]; exact I].
  intros (q & _ & H). destruct q; destruct H as [-> ->]; try exact I; reflexivity.
Qed.
Lemma load_no_pointer k d m m' e : pload k d m m' e -> match e with PValue r => pointer_of r = None | _ => True end.
Proof. unfold pload. destruct (convert d); intros [-> ->]; try exact I; reflexivity. Qed.
Lemma set_abi_no_pointer E k t m m' e : pset_abi_body E k t m m' e -> match e with PValue r => pointer_of r = None | _ => True end.
Proof.
  unfold pset_abi_body. destruct (text_of _ t) as [x|]; [rewrite reading_some; cbv beta|intros [-> ->]; exact I].
  destruct (abi_def_from_json _ _) as [[d s]|y|w]; [|intros [-> ->]; exact I|intros [-> ->]; exact I].
  destruct (check_abi_version _); [apply load_no_pointer|]. intros [-> ->]. reflexivity.
Qed.
Lemma set_abi_bin_no_pointer k d n m m' e : pset_abi_bin_body k d n m m' e -> match e with PValue r => pointer_of r = None | _ => True end.
Proof.
  unfold pset_abi_bin_body. destruct (data_of _ d n) as [x|]; [rewrite reading_some; cbv beta|intros [-> ->]; exact I].
  destruct x as [[|b0 b]|]; [intros [-> ->]; reflexivity| |intros [-> ->]; reflexivity].
  destruct (from_bin _ _ _ _) as [[v s]|y|w]; [|intros [-> ->]; exact I|intros [-> ->]; exact I].
  destruct v; try (intros [-> ->]; exact I). destruct (check_abi_version _); [|intros [-> ->]; reflexivity].
  destruct (abi_def_from_bin _) as [[df s']|y|w]; [|intros [-> ->]; exact I|intros [-> ->]; exact I]. apply load_no_pointer.
Qed.
Lemma returned_own E m f m' r p : pcall E (Some m) f (Some m') (PReturns r) -> pointer_of r = Some p -> own f m' p.
Proof.
  destruct f; cbn [pcall own]; intros H P.
  - destruct H as [[= ->] H]. assert (r = P_text (Some (match last m with Some l => Outside (l ++ [0]) | None => Error_text (gbuf m) end))) as -> by congruence.
    cbn [pointer_of] in P. destruct (last m) as [l|]; [left; exists l|right]; congruence.
  - destruct H as [_ H]. injection H as ->. discriminate.
  - destruct H as [[= ->] H]. injection H as ->. cbn [pointer_of] in P. congruence.
  - apply handle_value in H as [->|(m1 & [= <-] & _ & H)]; [discriminate|]. injection H as ->. cbn [pointer_of] in P. congruence.
  - destruct H as [_ H]. destruct (text_of _ _); [injection H as ->; discriminate|discriminate].
  - apply handle_value in H as [->|(m1 & [= <-] & _ & H)]; [discriminate|]. injection H as ->. cbn [pointer_of] in P. congruence.
  - apply handle_value in H as [->|(m1 & [= <-] & H)]; [discriminate|]. apply set_abi_no_pointer in H. congruence.
  - apply handle_value in H as [->|(m1 & [= <-] & H)]; [discriminate|]. apply set_abi_bin_no_pointer in H. congruence.
  - apply handle_value in H as [->|(m1 & [= <-] & H)]; [discriminate|].
    destruct (text_of m hex) as [x|]; [rewrite reading_some in H; cbv beta in H|destruct H; discriminate].
    destruct (unhex x) as [b|]; [|destruct H as [_ H]; injection H as ->; discriminate]. destruct H as (o & H & Ho). destruct o as [r'|w]; [|discriminate]. injection Ho as <-.
    apply handle_value in H as [->|(m1 & [= <-] & H)]; [discriminate|]. apply set_abi_bin_no_pointer in H. congruence.
  - apply handle_value in H as [->|(m1 & [= <-] & -> & H)]; [discriminate|]. destruct (cfind contract (abis m)) as [a|] eqn:F; [|discriminate].
    destruct (zfind action (action_types a)) eqn:Z0; [|discriminate]. injection H as ->. cbn [pointer_of] in P. injection P as <-. split; [reflexivity|]. cbn [contents]. rewrite F, Z0. discriminate.
  - apply handle_value in H as [->|(m1 & [= <-] & -> & H)]; [discriminate|]. destruct (cfind contract (abis m)) as [a|] eqn:F; [|discriminate].
    destruct (zfind table (table_types a)) eqn:Z0; [|discriminate]. injection H as ->. cbn [pointer_of] in P. injection P as <-. split; [reflexivity|]. cbn [contents]. rewrite F, Z0. discriminate.
  - apply handle_value in H as [->|(m1 & [= <-] & H)]; [discriminate|]. apply json_no_pointer in H. congruence.
  - apply handle_value in H as [->|(m1 & [= <-] & H)]; [discriminate|]. apply json_no_pointer in H. congruence.
  - apply handle_value in H as [->|(m1 & [= <-] & H)]; [discriminate|]. apply bin_to_json_pointer in H. auto.
  - apply handle_value in H as [->|(m1 & [= <-] & H)]; [discriminate|].
    destruct (text_of m hex) as [x|]; [rewrite reading_some in H; cbv beta in H|destruct H; discriminate].
    destruct (unhex x) as [b|]; [|destruct H as [_ H]; injection H as ->; discriminate]. destruct H as (o & H & Ho). destruct o as [r'|w]; [|discriminate]. injection Ho as <-.
    apply handle_value in H as [->|(m1 & [= <-] & H)]; [discriminate|]. apply bin_to_json_pointer in H. auto.
Qed.
Lemma own_readable f m p : own f m p -> contents m p <> None.
Proof.
  destruct f; cbn [own]; try contradiction; try (intros ->; cbn [contents]; rewrite Nat.eqb_refl; discriminate); try (intros [_ H]; exact H).
  intros [[l ->]| ->]; cbn [contents]; [discriminate|]. rewrite Nat.eqb_refl. discriminate.
Qed.
(** One later call which is not in [ends] *)
Lemma own_kept E f m p g m' r : own f m p -> pcall E (Some m) g (Some m') (PReturns r) -> ends f (g, r) = false -> own f m' p /\ contents m' p = contents m p.
Proof.
  intros O H N. apply call_effects in H as [E1 E2 E3 E4 E5 E6 _ _ E9].
  assert (NM : is_name p = true -> contents m p <> None -> contents m' p = contents m p).
  { intros A B. destruct (contents m p) as [b|] eqn:C; [|congruence]. now apply E9. }
  destruct f; cbn [own ends fst snd] in *; try contradiction;
    try (destruct E5 as [A B]; [exact N|]; subst p; cbn [contents]; rewrite A, B; auto; fail);
    try (destruct O as [-> O]; rewrite NM by (reflexivity || exact O); auto; fail).
  - destruct E4 as [A B]; [now rewrite N|]. destruct O as [[l ->]| ->]; [split; [left; eauto|reflexivity]|]. cbn [contents]. rewrite A, B. auto.
  - destruct E6 as [A B]; [exact N|]. subst p. cbn [contents]. rewrite A, B. auto.
Qed.
Lemma own_run E f m p h m' : own f m p -> prun E m h m' -> Forall (fun x => ends f x = false) h -> own f m' p /\ contents m' p = contents m p.
Proof.
  intros O R. revert O. induction R as [m|m g m1 r h m2 H R IH]; intros O F; [auto|]. inversion F as [|? ? A B]; subst.
  destruct (own_kept E f m p g m1 r O H A) as [O1 C1]. destruct (IH O1 B) as [O2 C2]. split; [exact O2|congruence].
Qed.
Lemma run_effects E m h m' : prun E m h m' -> (gstr m <= gstr m')%nat /\ (gbin m <= gbin m')%nat.
Proof.
  induction 1 as [|m g m1 r h m2 H R IH]; [lia|]. apply call_effects in H. pose proof (e_gstr _ _ _ _ _ H). pose proof (e_gbin _ _ _ _ _ H). lia.
Qed.
