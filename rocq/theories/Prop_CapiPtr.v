(** * C55: pointers of the C interface *)
From Verif Require Import Base Stream TypedBin Hex Name Json Abi AbiScalar AbiBin AbiJson AbiDef Capi CapiSpec CapiFacts CapiPtr CapiPtrSpec CapiPtrFacts AbiScalarFacts Prop_AbiBin Prop_AbiJson Prop_Capi.

(** ** Arguments may point into the context
    A call whose arguments can be read does what it does on copies of them made before: the context it leaves, what
    it returns and whether it is defined are the same. This includes arguments returned by earlier calls on the
    same context, whose objects the call itself changes. The only exception is a JSON text at abieos_get_bin_data. *)
Theorem C55_arguments E m f x' o : proper m f -> pcall E (Some m) f x' o ->
  exists m', x' = Some m' /\ call E (Some (view m)) (copied m f) (Some (view m')) (seen_outcome m' o).
Proof. intros P. apply (proj1 (call_sim E m f P)). Qed.
Print Assumptions C55_arguments.
Theorem C55_copies E m f x' o : proper m f -> call E (Some (view m)) (copied m f) x' o ->
  exists m' o', pcall E (Some m) f (Some m') o' /\ x' = Some (view m') /\ o = seen_outcome m' o'.
Proof. intros P. apply (proj2 (call_sim E m f P)). Qed.
Print Assumptions C55_copies.

(** So the properties of histories (C34 to C37) hold for histories with pointers. *)
Inductive well_used (E : float_lib) : memory -> list (op * ret) -> memory -> Prop :=
| wu_nil m : well_used E m [] m
| wu_cons m f m1 r h m2 : proper m f -> pcall E (Some m) f (Some m1) (PReturns r) -> well_used E m1 h m2 ->
    well_used E m ((copied m f, seen m1 r) :: h) m2.
Lemma well_used_run E m h m' : well_used E m h m' -> run E (view m) h (view m').
Proof.
  induction 1 as [|m f m1 r h m2 P H W IH]; [constructor|]. eapply run_cons; [|exact IH].
  destruct (C55_arguments E m f _ _ P H) as (m' & [= <-] & C). exact C.
Qed.
Theorem C55_histories E h m : well_used E created h m -> reached E h (view m).
Proof. intros W. exact (well_used_run E created h m W). Qed.
Print Assumptions C55_histories.
(** Every call on proper arguments ends, and no call reads memory which is gone: the only undefined outcomes
    are those of the conversions themselves (C34). *)
Theorem C55_every_call_ends E h m f : well_used E created h m -> float_lib_ok E -> proper m f -> args_ok (copied m f) ->
  exists m' o, pcall E (Some m) f (Some m') o /\ forall w, o = PUndefined w -> converts (copied m f) = true /\ In w hazards.
Proof.
  intros W FO P A. destruct (C34_every_call_ends E h (view m) (copied m f) (C55_histories E h m W) FO A) as (c' & o & C & U).
  destruct (C55_copies E m f _ _ P C) as (m' & o' & H & _ & ->). exists m', o'. split; [exact H|]. intros w ->. now apply U.
Qed.
Print Assumptions C55_every_call_ends.

(** ** How long a returned pointer can be used *)
Theorem C55_lifetime E m f m1 r p h m2 : pcall E (Some m) f (Some m1) (PReturns r) -> pointer_of r = Some p ->
  prun E m1 h m2 -> Forall (fun later => ends f later = false) h ->
  exists b, contents m1 p = Some b /\ contents m2 p = Some b.
Proof.
  intros H P R F. pose proof (returned_own E m f m1 r p H P) as O. destruct (own_run E f m1 p h m2 O R F) as [_ C].
  pose proof (own_readable f m1 p O) as N. destruct (contents m1 p) as [b|]; [|congruence]. eauto.
Qed.
Print Assumptions C55_lifetime.
(** The names of types stay for as long as the context. *)
Theorem C55_type_names_stay E m f m1 p h m2 : (exists k n, f = P_get_type_for_action k n \/ f = P_get_type_for_table k n) ->
  pcall E (Some m) f (Some m1) (PReturns (P_text (Some p))) -> prun E m1 h m2 ->
  exists t, seen m1 (P_text (Some p)) = R_text (Some t) /\ seen m2 (P_text (Some p)) = R_text (Some t).
Proof.
  intros (k & n & K) H R. assert (F : Forall (fun later => ends f later = false) h) by (apply Forall_forall; intros x _; destruct K as [-> | ->]; reflexivity).
  destruct (C55_lifetime E m f m1 _ p h m2 H eq_refl R F) as (b & C1 & C2). cbn [seen]. unfold c_string. rewrite C1, C2.
  pose proof (returned_own E m f m1 _ p H eq_refl) as O.
  assert (Z0 : existsb (Z.eqb 0) b = true).
  { destruct K as [-> | ->]; destruct O as [-> _]; cbn [contents] in C1; (destruct (cfind k (abis m1)) as [a|]; [|discriminate]);
      (destruct (zfind n _); [|discriminate]); injection C1 as <-; apply existsb_snoc. }
  rewrite Z0. eauto.
Qed.
Print Assumptions C55_type_names_stay.
(** The limits are sharp: after a later call in [ends] which succeeds the pointer must not be used. *)
Theorem C55_text_ends E m f m1 p h m2 g m3 r : makes_text f = true -> pcall E (Some m) f (Some m1) (PReturns (P_text (Some p))) ->
  prun E m1 h m2 -> makes_text g = true -> fails r = false -> pcall E (Some m2) g (Some m3) (PReturns r) -> contents m3 p = None.
Proof.
  intros T H R T' F G. pose proof (returned_own E m f m1 _ p H eq_refl) as O. apply call_effects in G. pose proof (e_newstr _ _ _ _ _ G) as N. rewrite T', F in N.
  specialize (N eq_refl eq_refl). apply run_effects in R as [R _].
  destruct f; try discriminate; cbn [own] in O; subst p; cbn [contents]; (destruct (Nat.eqb_spec (gstr m1) (gstr m3)); [lia|reflexivity]).
Qed.
Print Assumptions C55_text_ends.
Theorem C55_data_ends E m m1 p h m2 g m3 r : pcall E (Some m) P_get_bin_data (Some m1) (PReturns (P_data (Some p))) ->
  prun E m1 h m2 -> makes_data g = true -> fails r = false -> pcall E (Some m2) g (Some m3) (PReturns r) -> contents m3 p = None.
Proof.
  intros H R T' F G. pose proof (returned_own E m _ m1 _ p H eq_refl) as O. apply call_effects in G. pose proof (e_newbin _ _ _ _ _ G) as N. rewrite T', F in N.
  specialize (N eq_refl eq_refl). apply run_effects in R as [_ R]. cbn [own] in O. subst p. cbn [contents]. destruct (Nat.eqb_spec (gbin m1) (gbin m3)); [lia|reflexivity].
Qed.
Print Assumptions C55_data_ends.

(** ** The error text ends with the next failure *)
Definition renews (m : memory) (p : memory -> pended -> Prop) : Prop := forall m' r, p m' (PValue r) -> fails r = true -> (gbuf m < gbuf m')%nat /\ last m' = None.
Lemma renews_load k d m l : renews m (pload k d (set_last m l)).
Proof. intros m' r. unfold pload. destruct (convert d); intros [-> H] F; try discriminate H. injection H as ->. discriminate F. Qed.
Ltac renewed := let H := fresh in let F := fresh in intros [-> H] F; (discriminate H || (injection H as ->; (discriminate F || (cbn; split; [lia|reflexivity])))).
Lemma renews_set_abi E k t m : renews m (pset_abi_body E k t m).
Proof.
  intros m' r. unfold pset_abi_body. destruct (text_of _ t) as [x|]; [rewrite reading_some; cbv beta|renewed].
  destruct (abi_def_from_json _ _) as [[d s]|y|w]; [|renewed|renewed]. destruct (check_abi_version _); [apply renews_load|renewed].
Qed.
Lemma renews_set_abi_bin k d n m : renews m (pset_abi_bin_body k d n m).
Proof.
  intros m' r. unfold pset_abi_bin_body. destruct (data_of _ d n) as [x|]; [rewrite reading_some; cbv beta|renewed].
  destruct x as [[|b0 b]|]; [renewed| |renewed].
  destruct (from_bin _ _ _ _) as [[v s]|y|w]; [|renewed|renewed]. destruct v; try renewed. destruct (check_abi_version _); [|renewed].
  destruct (abi_def_from_bin _) as [[df s']|y|w]; [apply renews_load|renewed|renewed].
Qed.
Lemma renews_get_type field place kind k n m : renews m (pget_type_body field place kind k n m).
Proof. intros m' r [-> H]. destruct (cfind _ _) as [a|]; [|discriminate H]. destruct (zfind _ _); [injection H as ->|]; discriminate. Qed.
Lemma renews_json conv k t j m : renews m (pjson_body conv k t j m).
Proof.
  intros m' r. unfold pjson_body. cbn [set_last abis]. destruct (cfind k (abis m)) as [a|]; [|renewed].
  destruct (text_of _ t) as [x|]; [rewrite reading_some; cbv beta|renewed]. destruct (abi_get_type a x) as [[p a']|y|w]; [|renewed|renewed].
  destruct (text_of _ j) as [z|]; [rewrite reading_some; cbv beta|renewed]. intros (q & _ & H). revert H. destruct q; renewed.
Qed.
Lemma renews_bin_to_json E k t d n m : cfind k (abis m) <> None -> renews m (pbin_to_json_body E k t d n m).
Proof.
  intros K m' r. unfold pbin_to_json_body. cbn [set_last abis]. destruct (cfind k (abis m)) as [a|]; [|now destruct K]. clear K.
  destruct (text_of _ t) as [x|]; [rewrite reading_some; cbv beta|renewed]. destruct (abi_get_type a x) as [[p a']|y|w]; [|renewed|renewed].
  destruct (data_of _ d n) as [z|]; [rewrite reading_some; cbv beta|renewed]. intros (q & _ & H). revert H.
  destruct q as [[text rest]| |]; [destruct (beq rest [])| |]; renewed.
Qed.
Lemma renews_handle txt dat m v p m' r : fails v = true -> beff txt dat m (p m) -> renews m (p m) -> phandle (Some m) v p (Some m') (PReturns r) ->
  fails r = true -> (gbuf m < gbuf m')%nat /\ last m' = None.
Proof.
  intros V B N (m1 & e & P & H) F. destruct e as [r'|t|w]; destruct H as [X H]; [| |discriminate]; injection X as ->.
  - assert (r = r') as -> by congruence. exact (N _ _ P F).
  - apply B in P. pose proof (e_gbuf _ _ _ _ _ P). cbn. split; [lia|reflexivity].
Qed.
Lemma renews_nested txt dat m v p : fails v = true -> beff txt dat m (p m) -> renews m (p m) -> renews m (pnested (fun x => phandle x v p) m).
Proof.
  intros V B N m' r (o & H & X) F. destruct o as [r'|w]; [|discriminate]. injection X as ->. exact (renews_handle txt dat m v p _ _ V B N H F).
Qed.
(** A conversion to JSON is for a loaded contract. *)
Definition for_loaded (m : memory) (f : pop) : Prop :=
  match f with P_bin_to_json k _ _ _ | P_hex_to_json k _ _ => cfind k (abis m) <> None | _ => True end.
Lemma call_renews E m f m' r : for_loaded m f -> pcall E (Some m) f (Some m') (PReturns r) -> fails r = true -> (gbuf m < gbuf m')%nat /\ last m' = None.
Proof.
  assert (H0 : forall txt dat v p, fails v = true -> beff txt dat m (p m) -> renews m (p m) -> phandle (Some m) v p (Some m') (PReturns r) -> fails r = true -> (gbuf m < gbuf m')%nat /\ last m' = None)
    by (intros txt dat v p V B N; exact (renews_handle txt dat m v p m' r V B N)).
  intros K. destruct f; cbn [pcall].
  - intros [_ H] F. exfalso. revert H F. (destruct (text_of _ _) + idtac); intros H; try discriminate H; injection H as ->; discriminate.
  - intros [_ H] F. exfalso. revert H F. (destruct (text_of _ _) + idtac); intros H; try discriminate H; injection H as ->; discriminate.
  - intros [_ H] F. exfalso. revert H F. (destruct (text_of _ _) + idtac); intros H; try discriminate H; injection H as ->; discriminate.
  - apply (H0 true false); [reflexivity| |]. { intros m1 e [-> ->]. cbn [negb fails]. basic. } intros m1 q. renewed.
  - intros [_ H] F. exfalso. revert H F. (destruct (text_of _ _) + idtac); intros H; try discriminate H; injection H as ->; discriminate.
  - apply (H0 true false); [reflexivity| |]. { intros m1 e [-> ->]. cbn [negb fails]. basic. } intros m1 q. renewed.
  - apply (H0 false false); [reflexivity| |]; [apply eff_set_abi|apply renews_set_abi].
  - apply (H0 false false); [reflexivity| |]; [apply eff_set_abi_bin|apply renews_set_abi_bin].
  - apply (H0 false false); [reflexivity| |].
    + apply eff_reading. intros b. destruct (unhex b) as [z|]; [|intros m1 e [-> ->]; basic].
      apply (eff_nested false false m (P_bool false) (pset_abi_bin_body _ _ _)); [reflexivity|]. apply eff_set_abi_bin.
    + intros m1 q. destruct (text_of _ _) as [x|]; [rewrite reading_some; cbv beta|renewed]. destruct (unhex x) as [z|]; [|renewed].
      apply (renews_nested false false m (P_bool false) (pset_abi_bin_body _ _ _)); [reflexivity|apply eff_set_abi_bin|apply renews_set_abi_bin].
  - apply (H0 false false); [reflexivity| |]; [apply eff_get_type|apply renews_get_type].
  - apply (H0 false false); [reflexivity| |]; [apply eff_get_type|apply renews_get_type].
  - apply (H0 false true); [reflexivity| |]; [apply eff_json|apply renews_json].
  - apply (H0 false true); [reflexivity| |]; [apply eff_json|apply renews_json].
  - apply (H0 true false); [reflexivity| |]; [apply eff_bin_to_json|apply renews_bin_to_json; exact K].
  - apply (H0 true false); [reflexivity| |].
    + apply eff_reading. intros b. destruct (unhex b) as [z|]; [|intros m1 e [-> ->]; basic].
      apply (eff_nested true false m (P_text None) (pbin_to_json_body E _ _ _ _)); [reflexivity|]. apply eff_bin_to_json.
    + intros m1 q. destruct (text_of _ _) as [x|]; [rewrite reading_some; cbv beta|renewed]. destruct (unhex x) as [z|]; [|renewed].
      apply (renews_nested true false m (P_text None) (pbin_to_json_body E _ _ _ _)); [reflexivity|apply eff_bin_to_json|apply renews_bin_to_json; exact K].
Qed.
Lemma run_gbuf E m h m' : prun E m h m' -> (gbuf m <= gbuf m')%nat.
Proof. induction 1 as [|m f m1 r h m2 C _ IH]; [lia|]. apply call_effects in C. pose proof (e_gbuf _ _ _ _ _ C). lia. Qed.
(** After a failure, the pointer from get_error ends with the next failing call. (bin_to_json and hex_to_json for a contract which is
    not loaded leave the buffer alone and give a string literal, src/abieos.cpp:228: C35_not_loaded.) *)
Theorem C55_error_ends E m0 f m r0 m1 p h m2 g m3 r : for_loaded m0 f -> pcall E (Some m0) f (Some m) (PReturns r0) -> fails r0 = true ->
  pcall E (Some m) P_get_error (Some m1) (PReturns (P_text (Some p))) ->
  prun E m1 h m2 -> for_loaded m2 g -> pcall E (Some m2) g (Some m3) (PReturns r) -> fails r = true -> contents m3 p = None.
Proof.
  intros K0 H0 F0 H R K G F. destruct (call_renews _ _ _ _ _ K G F) as [N _]. destruct (call_renews _ _ _ _ _ K0 H0 F0) as [_ L]. apply run_gbuf in R.
  cbn [pcall] in H. destruct H as [X H]. injection X as ->. rewrite L in H. injection H as ->. cbn [contents]. destruct (Nat.eqb_spec (gbuf m) (gbuf m3)); [lia|reflexivity].
Qed.
Print Assumptions C55_error_ends.
(** Two loads without data fail; the text of the first is read in between, and is gone after the second. *)
Example ex_error_ends : exists m1 m2 p, pcall no_floats (Some created) (P_set_abi_bin 5 None 0) (Some m1) (PReturns (P_bool false)) /\
  pcall no_floats (Some m1) P_get_error (Some m1) (PReturns (P_text (Some p))) /\ contents m1 p = Some (str "no data" ++ [0]) /\
  pcall no_floats (Some m1) (P_set_abi_bin 6 None 0) (Some m2) (PReturns (P_bool false)) /\ contents m2 p = None.
Proof.
  exists (set_error (set_last created (str "abi parse error")) (str "no data")), (set_error (set_last (set_error (set_last created (str "abi parse error")) (str "no data")) (str "abi parse error")) (str "no data")), (Error_text 1).
  split; [eexists _, _; split; [split; reflexivity|split; reflexivity]|]. split; [split; reflexivity|]. split; [reflexivity|].
  split; [eexists _, _; split; [split; reflexivity|split; reflexivity]|reflexivity].
Qed.

(** ** The way the library is used (src/test.cpp): the hex text of the result goes straight into hex_to_json. *)
Theorem C55_hex_chain E m m1 p k t x' o : is_text m t -> (forall g, t <> Some (Str_text g)) ->
  pcall E (Some m) P_get_bin_hex (Some m1) (PReturns (P_text (Some p))) -> pcall E (Some m1) (P_hex_to_json k t (Some p)) x' o ->
  exists m', x' = Some m' /\
    call E (Some (view m1)) (Hex_to_json k (text_at m t) (Some (hex (rbin m) ++ [0]))) (Some (view m')) (seen_outcome m' o).
Proof.
  intros T N G H. apply handle_value in G as [G|(m2 & [= <-] & -> & G)]; [discriminate|]. assert (p = Str_text (gstr (set_str m (hex (rbin m))))) as -> by congruence.
  assert (C : contents (set_str m (hex (rbin m))) (Str_text (gstr (set_str m (hex (rbin m))))) = Some (hex (rbin m) ++ [0])).
  { cbn [contents set_str gstr rstr]. now rewrite Nat.eqb_refl. }
  assert (Q : forall q, t = Some q -> contents (set_str m (hex (rbin m))) q = contents m q) by (intros q ->; destruct q; try reflexivity; now destruct (N g)).
  assert (P : proper (set_str m (hex (rbin m))) (P_hex_to_json k t (Some (Str_text (gstr (set_str m (hex (rbin m)))))))).
  { split.
    - destruct t as [q|]; [|exact I]. destruct T as (b & B & Z0). exists b. split; [now rewrite (Q q eq_refl)|exact Z0].
    - exists (hex (rbin m) ++ [0]). split; [exact C|]. apply in_app_iff. right. now left. }
  destruct (C55_arguments E _ _ _ _ P H) as (m' & -> & X). exists m'. split; [reflexivity|]. cbn [copied] in X.
  assert (Et : text_at (set_str m (hex (rbin m))) t = text_at m t) by (destruct t as [q|]; [|reflexivity]; cbn [text_at]; now rewrite (Q q eq_refl)).
  rewrite Et in X. cbn [text_at] in X. rewrite C in X. exact X.
Qed.
Print Assumptions C55_hex_chain.

(** ** Examples and findings *)
Definition ex_type : option pointer := Some (Outside (str "tail" ++ [0])).
Definition ex_json_text : option pointer := Some (Outside (ex_text ++ [0])).
Lemma is_text_outside m b : is_text m (Some (Outside (b ++ [0]))).
Proof. exists (b ++ [0]). split; [reflexivity|]. apply in_app_iff. right. now left. Qed.
(** An ABI is loaded and a JSON text converted. *)
Lemma ex_used : exists h m, well_used no_floats created h m /\ view m = ex_after (str "json parse error") ex_bin.
Proof.
  assert (P1 : proper created (P_set_abi_bin 5 (Some (Outside ex_bytes)) (List.length ex_bytes))) by (exists ex_bytes; split; [reflexivity|lia]).
  assert (C1 : copied created (P_set_abi_bin 5 (Some (Outside ex_bytes)) (List.length ex_bytes)) = Set_abi_bin 5 (Some ex_bytes)).
  { cbn [copied]. unfold data_at, text_at. cbn [contents option_map]. now rewrite firstn_all. }
  pose proof (ex_set no_floats) as S. rewrite <- C1 in S.
  destruct (C55_copies no_floats created _ _ _ P1 S) as (m1 & o1 & H1 & V1 & O1).
  assert (V1' : view m1 = ex_context) by congruence. clear V1.
  assert (P2 : proper m1 (P_json_to_bin 5 ex_type ex_json_text)) by (split; [apply is_text_outside|split; [apply is_text_outside|reflexivity]]).
  assert (S2 : call no_floats (Some (view m1)) (copied m1 (P_json_to_bin 5 ex_type ex_json_text)) (Some (ex_after (str "json parse error") ex_bin)) (Returns (R_bool true))).
  { rewrite V1'. exact (ex_json no_floats ex_context no_floats_ok eq_refl). }
  destruct (C55_copies no_floats m1 _ _ _ P2 S2) as (m2 & o2 & H2 & V2 & O2).
  destruct o1 as [r1|]; [|discriminate]. destruct o2 as [r2|]; [|discriminate].
  eexists _, m2. split; [|congruence]. eapply wu_cons; [exact P1|exact H1|]. eapply wu_cons; [exact P2|exact H2|]. constructor.
Qed.
(** The hypotheses of C55_hex_chain, C55_lifetime and the others: what the test programs of /repo do. *)
Example C55_hypotheses : exists h m m1 p, well_used no_floats created h m /\
  pcall no_floats (Some m) P_get_bin_hex (Some m1) (PReturns (P_text (Some p))) /\
  seen m1 (P_text (Some p)) = R_text (Some (str "07010900000000000000")) /\
  proper m1 (P_hex_to_json 5 ex_type (Some p)) /\
  ends P_get_bin_hex (P_json_to_bin 5 ex_type (Some p), P_bool true) = false /\ ends P_get_bin_hex (P_name_to_string 5, P_text (Some p)) = true.
Proof.
  destruct ex_used as (h & m & W & V). exists h, m, (set_str m (hex (rbin m))), (Str_text (S (gstr m))).
  assert (B : rbin m = ex_bin) by (apply (f_equal result_bin) in V; exact V).
  assert (C : contents (set_str m (hex (rbin m))) (Str_text (S (gstr m))) = Some (hex (rbin m) ++ [0])) by (cbn [contents set_str gstr rstr]; now rewrite Nat.eqb_refl).
  split; [exact W|]. split; [cbn [pcall phandle]; eexists _, _; split; [split; reflexivity|split; reflexivity]|].
  split; [cbn [seen]; rewrite (see_string _ _ _ C), B; vm_compute; reflexivity|]. split; [|split; reflexivity].
  split; [apply is_text_outside|]. exists (hex (rbin m) ++ [0]). split; [exact C|]. apply in_app_iff. right. now left.
Qed.
(** json_to_bin clears the result before it reads the JSON text: a text at abieos_get_bin_data is gone then,
    although it could be read before the call. *)
Theorem C55_json_in_result_refuted : exists h m p m' t, well_used no_floats created h m /\
  pcall no_floats (Some m) P_get_bin_data (Some m) (PReturns (P_data (Some p))) /\ is_text m (Some p) /\ is_text m t /\
  pcall no_floats (Some m) (P_json_to_bin 5 t (Some p)) (Some m') (PUndefined "invalid pointer").
Proof.
  destruct ex_used as (h & m & W & V). assert (B : rbin m = ex_bin) by (apply (f_equal result_bin) in V; exact V).
  assert (A : abis m = [(5, ex_loaded_abi)]) by (apply (f_equal contracts) in V; exact V).
  exists h, m, (Bin_bytes (gbin m)), (set_bin (set_abis (set_last m (str "json parse error")) (update 5 ex_loaded_abi (abis m))) []), ex_type.
  split; [exact W|]. split; [split; reflexivity|].
  split; [exists ex_bin; cbn [contents]; rewrite Nat.eqb_refl, B; split; [reflexivity|do 3 right; now left]|]. split; [apply is_text_outside|].
  cbn [pcall phandle]. exists (set_bin (set_abis (set_last m (str "json parse error")) (update 5 ex_loaded_abi (abis m))) []), (PUndef "invalid pointer").
  split; [|split; reflexivity]. unfold pjson_body. cbn [set_last abis]. rewrite A. cbn [cfind]. change (5 =? 5) with true. cbn iota.
  assert (Et : forall mm, text_of mm ex_type = Some (str "tail")) by reflexivity.
  rewrite Et, reading_some. cbv beta. rewrite ex_lookup.
  set (M := set_bin _ _).
  assert (Ej : text_of M (Some (Bin_bytes (gbin m))) = None).
  { unfold M. cbn [text_of]. unfold c_string. cbn [contents set_bin set_abis set_last gbin]. destruct (Nat.eqb_spec (gbin m) (S (gbin m))); [lia|reflexivity]. }
  rewrite Ej. split; [|reflexivity]. unfold M. cbn [set_last abis]. now rewrite A.
Qed.
Print Assumptions C55_json_in_result_refuted.
