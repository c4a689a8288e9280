(** * C66: Running out of memory inside a call *)
From Verif Require Import Base Stream TypedBin TypedSpec Hex Name Json Abi AbiSpec AbiFacts AbiLoad Prop_Abi AbiScalar AbiScalarFacts AbiBin AbiJson AbiDef AbiUse AbiStable ReloadFacts Prop_AbiBin Prop_AbiJson Capi CapiSpec CapiFacts Prop_Capi CapiOom CapiOomFacts.

(** The call returns its failure value and abieos_get_error says why. *)
Theorem C66_reported E c f c' r : short_call E c f c' r ->
  r = failure_value f /\ failed r /\ call E (Some c') Get_error (Some c') (Returns (R_text (Some (str "std::bad_alloc")))).
Proof.
  intros (c1 & H & -> & ->). destruct f; cbn [runs_out] in H; try contradiction; (split; [reflexivity|]; split; [unfold failed; cbn [errval]; auto|split; reflexivity]).
Qed.
Print Assumptions C66_reported.

(** A context which could not be created is null, and every call on it gives its failure value (C34). *)
Theorem C66_create x : creates x -> x = Some create \/ forall E f x' o, call E x f x' o <-> x' = None /\ o = Returns (failure_value f).
Proof. intros [->| ->]; [now left|right]. intros E f x' o. apply C34_null_context. Qed.
Print Assumptions C66_create.

(** A use of a contract after such calls has the outcome it has in any other context with the same definition: the calls which ran out of
    memory count as not made. [done h]: the calls of the history which had enough memory. *)
Theorem C66_uses E h1 c1 k1 h2 c2 k2 d u x1 o1 x2 o2 :
  srun E create h1 c1 -> abi_of E (done h1) k1 d -> srun E create h2 c2 -> abi_of E (done h2) k2 d ->
  call E (Some c1) (use_op k1 u) (Some x1) o1 -> call E (Some c2) (use_op k2 u) (Some x2) o2 ->
  o1 = o2 /\
  (o1 = Returns (R_bool true) -> result_bin x1 = result_bin x2) /\
  (known_type d u -> last_error x1 = last_error x2).
Proof.
  intros R1 A1 R2 A2 U1 U2. destruct (state_abi _ _ _ _ _ (sreached_ok _ _ _ R1) A1) as (a1 & c01 & F1 & Cv1 & L1).
  destruct (state_abi _ _ _ _ _ (sreached_ok _ _ _ R2) A2) as (a2 & c02 & F2 & Cv2 & L2).
  assert (c02 = c01) as -> by congruence. exact (use_same E k1 k2 u c1 c2 d c01 a1 a2 (Some x1) (Some x2) o1 o2 F1 F2 Cv1 L1 L2 U1 U2).
Qed.
Print Assumptions C66_uses.
Theorem C66_not_loaded E h c k : srun E create h c ->
  (exists d, abi_of E (done h) k d) \/
  ~ is_set k (done h) /\ forall u x o, call E (Some c) (use_op k u) x o -> exists r, o = Returns r /\ failed r.
Proof.
  intros R. apply sreached_ok in R. destruct (state_cases E _ c k R) as [N|D]; [right|now left]. split; [exact N|]. intros u x o U.
  exists (refused u). split; [exact (use_none E k u c x o (state_none _ _ _ _ R N) U)|]. unfold failed. destruct u; cbn [refused]; auto.
Qed.
Print Assumptions C66_not_loaded.
(** A history without such calls is an ordinary one. *)
Theorem C66_ordinary E h c : run E create h c -> srun E create (map (fun x => Returned (fst x) (snd x)) h) c /\ done (map (fun x => Returned (fst x) (snd x)) h) = h.
Proof.
  generalize create. intros c0 R. split.
  - induction R as [c1|c1 f c2 r h c3 H R IH]; [constructor|econstructor; eauto].
  - clear R. induction h as [|[f r] h IH]; cbn [map done fst snd]; congruence.
Qed.
Print Assumptions C66_ordinary.

(** Making the call again, with enough memory, has the outcome it would have had. *)
Lemma load_same k d c1 c1' e1 c2 c2' e2 : load k d c1 c1' e1 -> load k d c2 c2' e2 -> e1 = e2.
Proof. unfold load. destruct (convert d); intros [_ ->] [_ ->]; reflexivity. Qed.
Lemma set_abi_same E k t c1 c1' e1 c2 c2' e2 : set_abi_body E k t c1 c1' e1 -> set_abi_body E k t c2 c2' e2 -> e1 = e2.
Proof.
  unfold set_abi_body. destruct (abi_def_from_json _ _) as [[d s]| |]; try (intros [_ ->] [_ ->]; reflexivity).
  destruct (check_abi_version _); [|intros [_ ->] [_ ->]; reflexivity]. apply load_same.
Qed.
Lemma set_abi_bin_same k d c1 c1' e1 c2 c2' e2 : set_abi_bin_body k d c1 c1' e1 -> set_abi_bin_body k d c2 c2' e2 -> e1 = e2.
Proof.
  unfold set_abi_bin_body. destruct d as [[|b0 b]|]; try (intros [_ ->] [_ ->]; reflexivity).
  destruct (from_bin _ _ _ _) as [[v s]| |]; try (intros [_ ->] [_ ->]; reflexivity). destruct v; try (intros [_ ->] [_ ->]; reflexivity).
  destruct (check_abi_version _); [|intros [_ ->] [_ ->]; reflexivity].
  destruct (abi_def_from_bin _) as [[df s']| |]; try (intros [_ ->] [_ ->]; reflexivity). apply load_same.
Qed.
Lemma handle_same c1 c2 v (f : body) x1 o1 x2 o2 : (forall a1 e1 a2 e2, f c1 a1 e1 -> f c2 a2 e2 -> e1 = e2) ->
  handle_exceptions (Some c1) v f x1 o1 -> handle_exceptions (Some c2) v f x2 o2 -> o1 = o2.
Proof.
  intros S (a1 & e1 & F1 & H1) (a2 & e2 & F2 & H2). pose proof (S _ _ _ _ F1 F2) as <-. destruct e1; destruct H1 as [_ ->], H2 as [_ ->]; reflexivity.
Qed.
Lemma uses_same E h c1 c2 k u x1 o1 x2 o2 : state_ok E h c1 -> state_ok E h c2 ->
  call E (Some c1) (use_op k u) x1 o1 -> call E (Some c2) (use_op k u) x2 o2 ->
  o1 = o2 /\ (o1 = Returns (R_bool true) -> result_bin (context_of x1) = result_bin (context_of x2)).
Proof.
  intros S1 S2 U1 U2. destruct (state_cases E h c1 k S1) as [N|[d A]].
  - pose proof (use_none _ _ _ _ _ _ (state_none _ _ _ _ S1 N) U1) as ->. rewrite (use_none _ _ _ _ _ _ (state_none _ _ _ _ S2 N) U2). split; [reflexivity|].
    destruct u; discriminate.
  - destruct (state_abi _ _ _ _ _ S1 A) as (a1 & c01 & F1 & Cv1 & L1). destruct (state_abi _ _ _ _ _ S2 A) as (a2 & c02 & F2 & Cv2 & L2).
    assert (c02 = c01) as -> by congruence. destruct (use_same E k k u c1 c2 d c01 a1 a2 x1 x2 o1 o2 F1 F2 Cv1 L1 L2 U1 U2) as (Q & P & _). auto.
Qed.
Theorem C66_again E h c f c1 r x o x1 o1 : srun E create h c -> short_call E c f c1 r ->
  call E (Some c) f (Some x) o -> call E (Some c1) f (Some x1) o1 ->
  o1 = o /\ (makes_bin f = true -> o = Returns (R_bool true) -> result_bin x1 = result_bin x).
Proof.
  intros R S U U1. pose proof (sreached_ok _ _ _ R) as I. assert (I1 : state_ok E (done h) c1) by (eapply cut_ok; [exact I|eapply short_cut, S]).
  assert (Uses : forall k u, f = use_op k u -> o1 = o /\ (makes_bin f = true -> o = Returns (R_bool true) -> result_bin x1 = result_bin x)).
  { intros k u ->. destruct (uses_same E _ c1 c k u (Some x1) o1 (Some x) o I1 I U1 U) as [-> Q]. split; [reflexivity|]. intros _. exact Q. }
  destruct S as (c2 & H & -> & _). destruct f; cbn [runs_out] in H; try contradiction.
  - destruct H as [n ->]. cbn [call handle_exceptions] in U, U1. destruct U as (y & e & [_ ->] & [_ ->]), U1 as (y1 & e1 & [_ ->] & [_ ->]). split; [reflexivity|discriminate].
  - subst c2. cbn [call handle_exceptions] in U, U1. destruct U as (y & e & [_ ->] & [_ ->]), U1 as (y1 & e1 & [_ ->] & [_ ->]). split; [reflexivity|discriminate].
  - split; [|discriminate]. cbn [call] in U, U1. eapply handle_same; [|exact U1|exact U]. intros a1 e1 a2 e2. apply set_abi_same.
  - split; [|discriminate]. cbn [call] in U, U1. unfold set_abi_bin_call in *. eapply handle_same; [|exact U1|exact U]. intros a1 e1 a2 e2. apply set_abi_bin_same.
  - split; [|discriminate]. cbn [call] in U, U1. eapply handle_same; [|exact U1|exact U]. intros a1 e1 a2 e2. cbn beta.
    destruct (unhex (text_arg hex)) as [b|]; [|intros [_ ->] [_ ->]; reflexivity]. intros (q1 & B1 & ->) (q2 & B2 & ->). unfold set_abi_bin_call in *.
    assert (q1 = q2) as <- by (eapply handle_same; [|exact B1|exact B2]; intros ? ? ? ?; apply set_abi_bin_same). reflexivity.
  - exact (Uses contract (Use_action action) eq_refl).
  - exact (Uses contract (Use_table table) eq_refl).
  - exact (Uses contract (Use_json type json) eq_refl).
  - exact (Uses contract (Use_json_reorderable type json) eq_refl).
  - exact (Uses contract (Use_bin type data) eq_refl).
  - exact (Uses contract (Use_hex type hex) eq_refl).
Qed.
Print Assumptions C66_again.

(** The binary result stays, or is empty after a conversion which would have replaced it. *)
Theorem C66_results E c f c' r : short_call E c f c' r -> result_bin c' = result_bin c \/ makes_bin f = true /\ result_bin c' = [].
Proof.
  assert (L : forall k a t c0 c1, in_lookup k a t c0 c1 -> result_bin c1 = result_bin c0) by (intros k a t c0 c1 (m' & _ & ->); reflexivity).
  assert (B : forall k t d c1, in_bin_to_json E k t d c c1 -> result_bin c1 = result_bin c).
  { intros k t d c1. unfold in_bin_to_json. destruct (cfind _ _); [|now intros ->]. intros [H|(p & a' & _ & [->|(x & y & _ & _ & ->)])]; [apply L in H; exact H|reflexivity|reflexivity]. }
  assert (D : forall d c1, in_set_abi_bin d c c1 -> result_bin c1 = result_bin c).
  { intros [[|]|] c1; cbn [in_set_abi_bin]; try contradiction. now intros ->. }
  intros (c1 & H & -> & _). cbn [with_error result_bin]. destruct f; cbn [runs_out makes_bin] in *; try contradiction.
  - destruct H as [n ->]. now left.
  - subst. now left.
  - rewrite H. now left.
  - left. now apply D in H.
  - destruct H as [->|(b & _ & H)]; [now left|]. left. now apply D in H.
  - destruct H as [-> _]. now left.
  - destruct H as [-> _]. now left.
  - unfold in_json in H. destruct (cfind _ _); [|subst; now left]. destruct H as [H|(p & a' & _ & ->)]; [left; apply L in H; exact H|now right].
  - unfold in_json in H. destruct (cfind _ _); [|subst; now left]. destruct H as [H|(p & a' & _ & ->)]; [left; apply L in H; exact H|now right].
  - left. now apply B in H.
  - destruct H as [->|(b & _ & H)]; [now left|]. left. now apply B in H.
Qed.
Print Assumptions C66_results.

(** Every call after such a history comes back, as in C34. *)
Theorem C66_every_call_ends E h c f : srun E create h c -> float_lib_ok E -> args_ok f ->
  exists c' o, call E (Some c) f (Some c') o /\ forall w, o = Undefined w -> converts f = true /\ In w hazards.
Proof. intros R. eapply calls_end, sreached_ok, R. Qed.
Print Assumptions C66_every_call_ends.

(** The types a call which ran out of memory has added are among those it adds when there is memory. [holds c k q]: the abi of the contract [k] in
    [c] answers for the text [q] without adding anything. *)
Definition holds (c : context) (k : Z) (q : bytes) : Prop := 
  exists a, cfind k (contracts c) = Some a /\ exists x, afind q (abi_types a) = Some x /\ is_def x = false.
Lemma holds_same c c' k q : contracts c' = contracts c -> holds c k q -> holds c' k q.
Proof. unfold holds. now intros ->. Qed.
Lemma holds_update c c1 c2 k a m1 m2 : cfind k (contracts c) = Some a -> (forall q, ready m1 q -> ready m2 q) ->
  contracts c1 = update k (Abi (action_types a) (table_types a) m1) (contracts c) -> contracts c2 = update k (Abi (action_types a) (table_types a) m2) (contracts c) ->
  forall j q, holds c1 j q -> holds c2 j q.
Proof.
  intros F R E1 E2 j q (b & Hb & Q). unfold holds. rewrite E1 in Hb. rewrite E2. rewrite cfind_update in *. destruct (j =? k); [|eauto].
  rewrite F in *. injection Hb as <-. eexists. split; [reflexivity|]. apply R, Q.
Qed.
Lemma get_type_all a t p a' : abi_get_type a t = Ok (p, a') -> a' = abi_looked_up a t.
Proof.
  unfold abi_get_type, abi_looked_up. generalize 32%nat. intros d H. apply bind_Ok in H as ([q m] & G & H). injection H as _ <-. rewrite (get_type_table_ok _ _ _ _ _ G). reflexivity.
Qed.
Lemma json_adds convert k t j c c' e : json_body convert k t j c c' e -> (forall w, e <> Undef_ w) ->
  match cfind k (contracts c) with None => contracts c' = contracts c | Some a => contracts c' = update k (abi_looked_up a t) (contracts c) end.
Proof.
  unfold json_body. cbn [with_error contracts]. destruct (cfind k (contracts c)) as [a|]; [|now intros [-> _]].
  destruct (abi_get_type a t) as [[p a']|x|w] eqn:G; [|now intros [-> _]|intros [_ ->] U; now destruct (U w)].
  apply get_type_all in G as <-. intros (q & _ & H) U. destruct q; destruct H as [-> _]; reflexivity.
Qed.
Lemma bin_adds E k t d c c' e : bin_to_json_body E k t d c c' e -> (forall w, e <> Undef_ w) ->
  match cfind k (contracts c) with None => contracts c' = contracts c | Some a => contracts c' = update k (abi_looked_up a t) (contracts c) end.
Proof.
  unfold bin_to_json_body. cbn [with_error contracts]. destruct (cfind k (contracts c)) as [a|]; [|now intros [-> _]].
  destruct (abi_get_type a t) as [[p a']|x|w] eqn:G; [|now intros [-> _]|intros [_ ->] U; now destruct (U w)].
  apply get_type_all in G as <-. intros (q & _ & H) U. destruct q as [[text rest]|x|w]; destruct H as [-> _]; reflexivity.
Qed.
Lemma lookup_holds k a t c c1 c2 : cfind k (contracts c) = Some a -> in_lookup k a t c c1 -> contracts c2 = update k (abi_looked_up a t) (contracts c) ->
  forall j q, holds c1 j q -> holds c2 j q.
Proof.
  intros F (m' & I & ->) E2. unfold abi_looked_up in E2. revert I E2. generalize 32%nat. intros d I E2.
  eapply holds_update; [exact F| |reflexivity|exact E2]. intros q. now apply interrupted_ready.
Qed.
Lemma json_holds k t c c1 c2 : in_json k t c c1 ->
  match cfind k (contracts c) with None => contracts c2 = contracts c | Some a => contracts c2 = update k (abi_looked_up a t) (contracts c) end ->
  forall j q, holds c1 j q -> holds c2 j q.
Proof.
  unfold in_json. cbn [with_error contracts]. destruct (cfind k (contracts c)) as [a|] eqn:F; [|intros -> E2 j q; now apply holds_same].
  intros [H|(p & a' & G & ->)] E2; [eapply (lookup_holds k a t (with_error c _)); eauto|]. apply get_type_all in G as ->. intros j q. apply holds_same. exact E2.
Qed.
Lemma bin_holds E k t d c c1 c2 : in_bin_to_json E k t d c c1 ->
  match cfind k (contracts c) with None => contracts c2 = contracts c | Some a => contracts c2 = update k (abi_looked_up a t) (contracts c) end ->
  forall j q, holds c1 j q -> holds c2 j q.
Proof.
  unfold in_bin_to_json. cbn [with_error contracts]. destruct (cfind k (contracts c)) as [a|] eqn:F; [|intros -> E2 j q; now apply holds_same].
  intros [H|(p & a' & G & H)] E2; [eapply (lookup_holds k a t (with_error c _)); eauto|]. apply get_type_all in G as ->. intros j q. apply holds_same. rewrite E2.
  destruct H as [->|(x & y & _ & _ & ->)]; reflexivity.
Qed.
Lemma handle_contracts (g : body) v c x r (P : context -> Prop) : (forall a b, contracts a = contracts b -> P a -> P b) ->
  (forall c' e, g c c' e -> (forall w, e <> Undef_ w) -> P c') -> handle_exceptions (Some c) v g (Some x) (Returns r) -> P x.
Proof.
  intros K G H. apply handle_some in H as (c1 & e & H & [(r1 & -> & [= ->] & _)|[(m & -> & [= ->] & _)|(w & _ & _ & ?)]]); [| |discriminate].
  - eapply G; [exact H|discriminate].
  - eapply K; [|eapply G; [exact H|discriminate]]. reflexivity.
Qed.
Lemma update_own k a : forall l, cfind k l = Some a -> update k a l = l.
Proof.
  induction l as [|[k' a'] l IH]; cbn [cfind update]; [reflexivity|]. destruct (k =? k') eqn:K; [apply Z.eqb_eq in K; congruence|]. intros F. now rewrite IH.
Qed.
Theorem C66_no_more E c f c1 r x v : short_call E c f c1 r -> call E (Some c) f (Some x) (Returns v) -> forall k q, holds c1 k q -> holds x k q.
Proof.
  intros (c2 & H & -> & _) U k q. change (holds (with_error c2 bad_alloc) k q) with (holds c2 k q).
  assert (Same : contracts c2 = contracts c -> holds c2 k q -> holds x k q).
  { intros S Q. apply (holds_same c2 c) in Q; [|congruence]. clear H S. apply call_effect in U as [(k1 & d & a & _ & _ & _ & _ & L)|[_ L]].
    - destruct Q as (b & F & R). exists b. split; [|exact R]. rewrite L. rewrite cfind_insert. destruct (k =? k1) eqn:K; [apply Z.eqb_eq in K; subst k1; now rewrite F|exact F].
    - destruct L as [L|(k1 & a & a' & F & (t & L) & C)]; [now apply (holds_same c)|].
      assert (a' = abi_looked_up a t) as -> by (destruct L as [[p L]|(e & _ & L)]; [eapply get_type_all; exact L|exact L]). clear L.
      revert C. unfold abi_looked_up. generalize 32%nat. intros n C. revert Q. assert (contracts c = update k1 a (contracts c)) as Cc by (symmetry; now apply update_own).
      eapply (holds_update c c x k1 a (abi_types a)); [exact F| |now destruct a|exact C]. intros y. apply ready_kept, get_type_table_kept. }
  assert (K : forall a b : context, contracts a = contracts b -> (holds c2 k q -> holds a k q) -> holds c2 k q -> holds b k q).
  { intros a b S A Q. apply (holds_same a b); [congruence|auto]. }
  destruct f; cbn [runs_out] in H; try contradiction; try (apply Same; first [destruct H as [n ->]; reflexivity|rewrite H; reflexivity|now destruct H as [-> _]]).
  - apply Same. destruct data as [[|]|]; cbn [in_set_abi_bin] in H; try contradiction. rewrite H. reflexivity.
  - apply Same. destruct H as [->|(b & _ & H)]; [reflexivity|]. destruct b; cbn [in_set_abi_bin] in H; [contradiction|]. rewrite H. reflexivity.
  - cbn [call] in U. revert U. apply (handle_contracts _ _ _ _ _ (fun x => holds c2 k q -> holds x k q) K). intros c' e B N. apply json_adds in B; [|exact N]. eapply json_holds; eauto.
  - cbn [call] in U. revert U. apply (handle_contracts _ _ _ _ _ (fun x => holds c2 k q -> holds x k q) K). intros c' e B N. apply json_adds in B; [|exact N]. eapply json_holds; eauto.
  - cbn [call] in U. revert U. apply (handle_contracts _ _ _ _ _ (fun x => holds c2 k q -> holds x k q) K). intros c' e B N. apply bin_adds in B; [|exact N]. eapply bin_holds; eauto.
  - destruct H as [H|(b & Hb & H)]; [now apply Same; rewrite H|].
    cbn [call] in U. revert U. apply (handle_contracts _ _ _ _ _ (fun x => holds c2 k q -> holds x k q) K). intros c' e B N. rewrite Hb in B.
    destruct B as (o & B & ->). destruct o as [v1|w]; [|now destruct (N w)]. revert B. unfold bin_to_json_call.
    apply (handle_contracts _ _ _ _ _ (fun x => holds c2 k q -> holds x k q) K). intros c3 e3 B N3. apply bin_adds in B; [|exact N3]. eapply bin_holds; eauto.
Qed.
Print Assumptions C66_no_more.

(** ** Being terminated *)
(** Only a call which fails anyway, with a text of more than 15 bytes, can end the program. *)
Theorem C66_terminates E c f : terminates E c f -> exists c' r, call E (Some c) f (Some c') (Returns r) /\ failed r /\ (15 < List.length (last_error c'))%nat.
Proof.
  assert (H : forall (g : body) v c1 m, g c c1 (Throws m) -> handle_exceptions (Some c) v g (Some (with_error c1 (cstr m))) (Returns v)).
  { intros g v c1 m G. exists c1, (Throws m). auto. }
  intros (m & T & L). destruct f; cbn [thrown] in T; try contradiction; cbn [call].
  - destruct T as (c1 & T). eexists _, _. split; [apply H; exact T|]. split; [now left|exact L].
  - destruct T as (c1 & T). eexists _, _. split; [apply H; exact T|]. split; [now left|exact L].
  - destruct T as (b & c1 & Hb & T). exists (with_error c1 (cstr m)), (R_bool false). split; [|split; [now left|exact L]].
    exists (with_error c1 (cstr m)), (Value (R_bool false)). rewrite Hb. split; [|auto]. exists (Returns (R_bool false)). split; [|reflexivity]. apply H. exact T.
  - destruct T as (c1 & T). eexists _, _. split; [apply H; exact T|]. split; [now right|exact L].
  - destruct T as (c1 & T). eexists _, _. split; [apply H; exact T|]. split; [now right|exact L].
  - destruct T as (c1 & T). eexists _, _. split; [apply H; exact T|]. split; [now left|exact L].
  - destruct T as (c1 & T). eexists _, _. split; [apply H; exact T|]. split; [now left|exact L].
  - destruct T as (c1 & T). eexists _, _. split; [apply H; exact T|]. split; [now right|exact L].
  - destruct T as (b & c1 & Hb & T). exists (with_error c1 (cstr m)), (R_text None). split; [|split; [now right|exact L]].
    exists (with_error c1 (cstr m)), (Value (R_text None)). rewrite Hb. split; [|auto]. exists (Returns (R_text None)). split; [|reflexivity]. apply H. exact T.
Qed.
Print Assumptions C66_terminates.
(** The claim that a call which runs out of memory always returns is false: in a fresh context asking for the type of an action ends the
    program if there is no memory for the text of the error ("contract "" is not loaded"), because it is copied inside the handler. *)
Theorem C66_always_returns_refuted E : exists h c f, srun E create h c /\ terminates E c f.
Proof.
  exists [], create, (Get_type_for_action 0 0). split; [constructor|]. exists (not_loaded 0). split; [|vm_compute; lia].
  exists create. split; reflexivity.
Qed.
Print Assumptions C66_always_returns_refuted.

(** ** Example: a conversion to tail[]$, for which memory runs out after tail[] was added to the types; conversions to tail are possible as before. *)
Definition ex_grown : abi := Eval vm_compute in abi_looked_up ex_loaded_abi (str "tail[]").
Example oom_example : let c := Ctx (str "std::bad_alloc") [] [] [(5, ex_grown)] in
  srun no_floats create [Returned (Set_abi_bin 5 (Some ex_bytes)) (R_bool true); Short (Json_to_bin 5 (Some (str "tail[]$")) (Some ex_text)) (R_bool false)] c /\
  ex_grown <> ex_loaded_abi /\ abi_get_type ex_grown (str "tail") = Ok (str "tail", ex_grown).
Proof.
  intros c. split; [|split; [|vm_compute; reflexivity]].
  - eapply srun_call; [apply ex_set|]. eapply srun_short; [|constructor].
    eexists. split; [|split; [|reflexivity]]; [|instantiate (1 := Ctx (str "json parse error") [] [] [(5, ex_grown)]); reflexivity].
    cbn [runs_out]. unfold in_json. cbn [with_error contracts ex_context cfind]. change (5 =? 5) with true. cbn iota. left.
    exists (abi_types ex_grown). split; [|reflexivity].
    apply (int_after 31 (abi_types ex_loaded_abi) (str "tail[]$") (str "tail[]") (str "tail[]")); vm_compute; reflexivity.
  - intros H. apply (f_equal (fun a => List.length (abi_types a))) in H. vm_compute in H. discriminate H.
Qed.
