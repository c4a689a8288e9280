(** * CapiFacts: lemmas about the C interface *)
From Verif Require Import Base Stream TypedBin Hex Name Json Abi AbiSpec AbiFacts AbiLoad Prop_Abi AbiScalar Machine AbiBin AbiBinFacts Prop_AbiBin AbiJson AbiJsonFacts Prop_AbiJson
  AbiDef AbiUse AbiStable Capi CapiSpec.

(** ** Determinism *)
Definition det (f : body) : Prop := forall c c1 e1 c2 e2, f c c1 e1 -> f c c2 e2 -> c1 = c2 /\ e1 = e2.
Lemma handle_det f v x x1 o1 x2 o2 : det f -> handle_exceptions x v f x1 o1 -> handle_exceptions x v f x2 o2 -> x1 = x2 /\ o1 = o2.
Proof.
  intros D. destruct x as [c|]; cbn [handle_exceptions]; [|intros [-> ->] [-> ->]; auto].
  intros (c1 & e1 & A & P) (c2 & e2 & B & Q). destruct (D _ _ _ _ _ A B) as [-> ->]. destruct e2; destruct P as [-> ->], Q as [-> ->]; auto.
Qed.
Lemma load_det k d : det (load k d).
Proof. intros c c1 e1 c2 e2. unfold load. destruct (convert d); intros [-> ->] [-> ->]; auto. Qed.
Lemma set_abi_det E k t : det (set_abi_body E k t).
Proof.
  intros c c1 e1 c2 e2. unfold set_abi_body. destruct (abi_def_from_json _ _) as [[d s]| |]; try (intros [-> ->] [-> ->]; auto; fail).
  destruct (check_abi_version _); [apply load_det|intros [-> ->] [-> ->]; auto].
Qed.
Lemma set_abi_bin_det k d : det (set_abi_bin_body k d).
Proof.
  intros c c1 e1 c2 e2. unfold set_abi_bin_body. destruct d as [[|b0 b]|]; try (intros [-> ->] [-> ->]; auto; fail).
  destruct (from_bin _ _ _ _) as [[v s]| |]; try (intros [-> ->] [-> ->]; auto; fail).
  destruct v; try (intros [-> ->] [-> ->]; auto; fail). destruct (check_abi_version _); try (intros [-> ->] [-> ->]; auto; fail).
  destruct (abi_def_from_bin _) as [[d s']| |]; try (intros [-> ->] [-> ->]; auto; fail). apply load_det.
Qed.
Lemma get_type_det fd kd k n : det (get_type_body fd kd k n).
Proof. intros c c1 e1 c2 e2 [-> ->] [-> ->]. auto. Qed.
Lemma json_det (conv : amap -> bytes -> bytes -> bytes -> res bytes -> Prop) k t j : (forall m p q r1 r2, conv m p q [] r1 -> conv m p q [] r2 -> r1 = r2) -> det (json_body conv k t j).
Proof.
  intros D c c1 e1 c2 e2. unfold json_body. destruct (cfind _ _) as [a|]; [|intros [-> ->] [-> ->]; auto].
  destruct (abi_get_type a t) as [[p a']| |]; try (intros [-> ->] [-> ->]; auto; fail).
  intros (q1 & A & P) (q2 & B & Q). rewrite (D _ _ _ _ _ A B) in *. destruct q2; destruct P as [-> ->], Q as [-> ->]; auto.
Qed.
Lemma bin_to_json_det E k t d : det (bin_to_json_body E k t d).
Proof.
  intros c c1 e1 c2 e2. unfold bin_to_json_body. destruct (cfind _ _) as [a|]; [|intros [-> ->] [-> ->]; auto].
  destruct (abi_get_type a t) as [[p a']| |]; try (intros [-> ->] [-> ->]; auto; fail).
  intros (q1 & A & P) (q2 & B & Q). rewrite (C28_deterministic _ _ _ _ _ _ A B) in *. destruct q2 as [[? ?]| |]; destruct P as [-> ->], Q as [-> ->]; auto.
Qed.
Lemma nested_det (f : option context -> option context -> outcome -> Prop) : (forall x x1 o1 x2 o2, f x x1 o1 -> f x x2 o2 -> x1 = x2 /\ o1 = o2) -> det (nested f).
Proof. intros D c c1 e1 c2 e2 (o1 & A & ->) (o2 & B & ->). destruct (D _ _ _ _ _ A B) as [[= ->] ->]. auto. Qed.
Lemma json_to_bin_fun E m p q r1 r2 : json_to_bin E m p q [] r1 -> json_to_bin E m p q [] r2 -> r1 = r2.
Proof. apply exec_fun. Qed.
Lemma call_det E x f x1 o1 x2 o2 : call E x f x1 o1 -> call E x f x2 o2 -> x1 = x2 /\ o1 = o2.
Proof.
  destruct f; cbn [call]; try (intros [-> ->] [-> ->]; auto; fail); apply handle_det.
  - intros c c1 e1 c2 e2 [-> ->] [-> ->]; auto.
  - intros c c1 e1 c2 e2 [-> ->] [-> ->]; auto.
  - apply set_abi_det.
  - apply set_abi_bin_det.
  - intros c c1 e1 c2 e2. destruct (unhex _); [|intros [-> ->] [-> ->]; auto]. apply nested_det. intros x' *. apply handle_det, set_abi_bin_det.
  - apply get_type_det.
  - apply get_type_det.
  - apply json_det. intros *. apply json_to_bin_fun.
  - apply json_det. intros *. apply reorderable_fun.
  - apply bin_to_json_det.
  - intros c c1 e1 c2 e2. destruct (unhex _); [|intros [-> ->] [-> ->]; auto]. apply nested_det. intros x' *. apply handle_det, bin_to_json_det.
Qed.

(** ** The map of contracts *)
Lemma cfind_app k l1 l2 : cfind k (l1 ++ l2) = match cfind k l1 with Some a => Some a | None => cfind k l2 end.
Proof. induction l1 as [|[k' a] l1 IH]; cbn [app cfind]; [reflexivity|]. destruct (k =? k'); auto. Qed.
Lemma cfind_insert k a l k' : cfind k' (insert k a l) = if k' =? k then match cfind k l with Some x => Some x | None => Some a end else cfind k' l.
Proof.
  unfold insert. destruct (cfind k l) as [x|] eqn:F.
  - destruct (Z.eqb_spec k' k) as [->|]; congruence.
  - rewrite cfind_app. cbn [cfind]. destruct (Z.eqb_spec k' k) as [->|]; [now rewrite F|]. destruct (cfind k' l); reflexivity.
Qed.
Lemma cfind_update k a l k' : cfind k' (update k a l) = if k' =? k then match cfind k l with Some _ => Some a | None => None end else cfind k' l.
Proof.
  induction l as [|[k1 a1] l IH]; cbn [update cfind]; [now destruct (_ =? _)|].
  destruct (Z.eqb_spec k k1) as [->|N]; cbn [cfind].
  - destruct (Z.eqb_spec k' k1); reflexivity.
  - rewrite IH. destruct (Z.eqb_spec k' k1) as [->|N1]; [|reflexivity]. destruct (Z.eqb_spec k1 k); [congruence|reflexivity].
Qed.

(** ** What a call does to the contracts *)
Definition looks_up (a a' : abi) : Prop := exists t, (exists p, abi_get_type a t = Ok (p, a')) \/ (exists e, abi_get_type a t = Err e /\ a' = abi_looked_up a t).
Lemma looks_up_after c0 a a' : after_lookups c0 a -> looks_up a a' -> after_lookups c0 a'.
Proof. intros A (t & [[p H]|(e & H & ->)]); [eapply one_more_lookup; eauto|eapply failed_lookup; eauto]. Qed.
Definition keeps (c c' : context) : Prop :=
  contracts c' = contracts c \/ exists k a a', cfind k (contracts c) = Some a /\ looks_up a a' /\ contracts c' = update k a' (contracts c).
Definition loads (E : float_lib) (f : op) (c c' : context) (e : ended) : Prop :=
  exists k d a, offers E f k d /\ sets k f = true /\ e = Value (R_bool true) /\ convert d = Ok a /\ contracts c' = insert k a (contracts c).
Lemma load_effect E f k d c c' e : load k d c c' e -> offers E f k d -> sets k f = true -> (forall w, e <> Undef_ w) ->
  loads E f c c' e \/ contracts c' = contracts c /\ e <> Value (R_bool true).
Proof.
  unfold load. intros L O S U. destruct (convert d) as [a|x|w] eqn:Cv; destruct L as [-> ->].
  - left. exists k, d, a. auto.
  - right. split; [reflexivity|discriminate].
  - now destruct (U w).
Qed.
Lemma set_abi_effect E k t c c' e : set_abi_body E k (text_arg t) c c' e -> (forall w, e <> Undef_ w) ->
  loads E (Set_abi k t) c c' e \/ contracts c' = contracts c /\ e <> Value (R_bool true).
Proof.
  unfold set_abi_body. intros H U. destruct (abi_def_from_json _ _) as [[d s]| |] eqn:F; try (destruct H as [-> ->]; right; split; [reflexivity|discriminate]).
  destruct (check_abi_version _); [|destruct H as [-> ->]; right; split; [reflexivity|discriminate]].
  eapply load_effect in H; eauto; [econstructor; eauto|apply Z.eqb_refl].
Qed.
Lemma set_abi_bin_effect E f k d c c' e : set_abi_bin_body k d c c' e -> (forall w, e <> Undef_ w) ->
  (forall b df s, d = Some b -> abi_def_from_bin b = Ok (df, s) -> offers E f k df) -> sets k f = true ->
  loads E f c c' e \/ contracts c' = contracts c /\ e <> Value (R_bool true).
Proof.
  unfold set_abi_bin_body. intros H U O S. destruct d as [[|b0 b]|]; try (destruct H as [-> ->]; right; split; [reflexivity|discriminate]).
  destruct (from_bin _ _ _ _) as [[v s]| |]; try (destruct H as [-> ->]; right; split; [reflexivity|discriminate]).
  destruct v; try (destruct H as [-> ->]; right; split; [reflexivity|discriminate]).
  destruct (check_abi_version _); try (destruct H as [-> ->]; right; split; [reflexivity|discriminate]).
  destruct (abi_def_from_bin _) as [[df s']| |] eqn:F; try (destruct H as [-> ->]; right; split; [reflexivity|discriminate]).
  eapply load_effect in H; eauto.
Qed.
Lemma json_effect conv k t j c c' e : json_body conv k t j c c' e -> keeps c c'.
Proof.
  unfold json_body. destruct (cfind _ _) as [a|] eqn:F; [|intros [-> _]; now left]. cbn [with_error contracts] in F.
  destruct (abi_get_type a t) as [[p a']|x|w] eqn:G.
  - intros (q & _ & H). assert (K : contracts c' = update k a' (contracts c)) by (destruct q; destruct H as [-> _]; reflexivity).
    right. exists k, a, a'. split; [exact F|]. split; [|exact K]. exists t. eauto.
  - intros [-> _]. right. exists k, a, (abi_looked_up a t). split; [exact F|]. split; [|reflexivity]. exists t. eauto.
  - intros [-> _]. now left.
Qed.
Lemma bin_to_json_effect E k t d c c' e : bin_to_json_body E k t d c c' e -> keeps c c'.
Proof.
  unfold bin_to_json_body. destruct (cfind _ _) as [a|] eqn:F; [|intros [-> _]; now left]. cbn [with_error contracts] in F.
  destruct (abi_get_type a t) as [[p a']|x|w] eqn:G.
  - intros (q & _ & H). assert (K : contracts c' = update k a' (contracts c)) by (destruct q as [[? ?]| |]; destruct H as [-> _]; reflexivity).
    right. exists k, a, a'. split; [exact F|]. split; [|exact K]. exists t. eauto.
  - intros [-> _]. right. exists k, a, (abi_looked_up a t). split; [exact F|]. split; [|reflexivity]. exists t. eauto.
  - intros [-> _]. now left.
Qed.
(** handle_exceptions around a body *)
Lemma handle_some c v f x' o : handle_exceptions (Some c) v f x' o -> exists c' e, f c c' e /\
  ((exists r, e = Value r /\ x' = Some c' /\ o = Returns r) \/ (exists m, e = Throws m /\ x' = Some (with_error c' (cstr m)) /\ o = Returns v) \/
   (exists w, e = Undef_ w /\ x' = Some c' /\ o = Undefined w)).
Proof. intros (c' & e & F & H). exists c', e. split; [exact F|]. destruct e; eauto 10. Qed.
Lemma call_effect E c f c' r : call E (Some c) f (Some c') (Returns r) ->
  loads E f c c' (Value r) \/ ((forall k, sets k f = true -> r <> R_bool true) /\ keeps c c').
Proof.
  assert (Setter : forall (g : body) v, (forall c1 e, g c c1 e -> (forall w, e <> Undef_ w) -> loads E f c c1 e \/ contracts c1 = contracts c /\ e <> Value (R_bool true)) ->
    v = R_bool false -> handle_exceptions (Some c) v g (Some c') (Returns r) -> loads E f c c' (Value r) \/ ((forall k, sets k f = true -> r <> R_bool true) /\ keeps c c')).
  { intros g v Hg -> H. apply handle_some in H as (c1 & e & H & [(r1 & -> & [= ->] & [= ->])|[(m & -> & [= ->] & [= ->])|(w & -> & _ & ?)]]); [| |discriminate].
    - destruct (Hg _ _ H ltac:(discriminate)) as [L|[K N]]; [now left|right]. split; [intros _ _; congruence|now left].
    - destruct (Hg _ _ H ltac:(discriminate)) as [(k & d & a & _ & _ & ? & _)|[K N]]; [discriminate|right]. split; [discriminate|now left]. }
  assert (User : forall (g : body) v, (forall c1 e, g c c1 e -> keeps c c1) -> (forall k, sets k f = false) ->
    handle_exceptions (Some c) v g (Some c') (Returns r) -> loads E f c c' (Value r) \/ ((forall k, sets k f = true -> r <> R_bool true) /\ keeps c c')).
  { intros g v Hg N H. right. split; [intros k; rewrite N; discriminate|].
    apply handle_some in H as (c1 & e & H & [(r1 & -> & [= ->] & _)|[(m & -> & [= ->] & _)|(w & -> & _ & ?)]]); [apply (Hg _ _ H)|apply (Hg _ _ H)|discriminate]. }
  assert (Same : c' = c -> (forall k, sets k f = false) -> loads E f c c' (Value r) \/ ((forall k, sets k f = true -> r <> R_bool true) /\ keeps c c')).
  { intros -> N. right. split; [intros k; rewrite N; discriminate|now left]. }
  destruct f; cbn [call]; intros H.
  1-3, 5: apply Same; [destruct H; congruence|reflexivity].
  - revert H. apply User; [|reflexivity]. intros c9 e [-> _]. now left.
  - revert H. apply User; [|reflexivity]. intros c9 e [-> _]. now left.
  - revert H. apply Setter; [|reflexivity]. intros c1 e. apply set_abi_effect.
  - revert H. apply Setter; [|reflexivity]. intros c1 e H U. eapply set_abi_bin_effect; eauto; [|apply Z.eqb_refl]. intros b df s -> Hd. econstructor; eauto.
  - revert H. apply Setter; [|reflexivity]. intros c1 e H U. destruct (unhex (text_arg hex)) as [b|] eqn:Hx; [|destruct H as [-> ->]; right; split; [reflexivity|discriminate]].
    destruct H as (o & H & ->). apply handle_some in H as (c2 & e & H & [(r1 & -> & Q & ->)|[(m & -> & Q & ->)|(w & -> & Q & ->)]]); [| |now destruct (U w)].
    + assert (c2 = c1) by congruence. subst c2. eapply set_abi_bin_effect; [exact H|discriminate| |apply Z.eqb_refl].
      intros b' df s Hb' Hd. assert (b' = b) by congruence. subst b'. econstructor; eauto.
    + eapply (set_abi_bin_effect E (Set_abi_hex contract hex)) in H; [|discriminate| |apply Z.eqb_refl].
      * destruct H as [(k & d & a & _ & _ & ? & _)|[K N]]; [discriminate|]. right. split; [injection Q as ->; exact K|discriminate].
      * intros b' df s Hb' Hd. assert (b' = b) by congruence. subst b'. econstructor; eauto.
  - revert H. apply User; [|reflexivity]. intros c9 e [-> _]. now left.
  - revert H. apply User; [|reflexivity]. intros c9 e [-> _]. now left.
  - revert H. apply User; [|reflexivity]. intros c1 e. apply json_effect.
  - revert H. apply User; [|reflexivity]. intros c1 e. apply json_effect.
  - revert H. apply User; [|reflexivity]. intros c1 e. apply bin_to_json_effect.
  - revert H. apply User; [|reflexivity]. intros c1 e H. destruct (unhex (text_arg hex)); [|destruct H as [-> _]; now left].
    destruct H as (o & H & _). apply handle_some in H as (c2 & e2 & H & [(r1 & -> & Q & _)|[(m & -> & Q & _)|(w & -> & Q & _)]]);
      apply bin_to_json_effect in H; injection Q as ->; exact H.
Qed.

(** ** What is loaded after a history *)
Lemma run_snoc E c h c1 f r c2 : run E c h c1 -> call E (Some c1) f (Some c2) (Returns r) -> run E c (h ++ [(f, r)]) c2.
Proof. intros R X. induction R as [c|c f0 c0 r0 h c1 H0 H IH]; cbn [app]; [eapply run_cons; [exact X|constructor]|]. eapply run_cons; [exact H0|]. now apply IH. Qed.
Lemma run_app_inv E c h1 h2 c2 : run E c (h1 ++ h2) c2 -> exists c1, run E c h1 c1 /\ run E c1 h2 c2.
Proof.
  revert c. induction h1 as [|[f r] h1 IH]; intros c H; cbn [app] in H; [exists c; split; [constructor|exact H]|].
  inversion H; subst. match goal with X : run E _ _ c2 |- _ => destruct (IH _ X) as (c3 & A & B) end. exists c3. split; [econstructor; eauto|exact B].
Qed.
Lemma is_set_snoc k h f r : is_set k (h ++ [(f, r)]) <-> is_set k h \/ r = R_bool true /\ sets k f = true.
Proof.
  unfold is_set. split.
  - intros (g & I & S). apply in_app_iff in I as [I|[[= -> ->]|[]]]; [left; eauto|right; auto].
  - intros [(g & I & S)|[-> S]]; [exists g|exists f]; (split; [|exact S]); apply in_app_iff; [now left|right; now left].
Qed.
Lemma abi_of_set E h k d : abi_of E h k d -> is_set k h.
Proof. intros (h1 & f & h2 & -> & _ & S & _). exists f. split; [|exact S]. apply in_app_iff. right. now left. Qed.
Lemma abi_of_more E h k d h' : abi_of E h k d -> abi_of E (h ++ h') k d.
Proof. intros (h1 & f & h2 & -> & N & S & O). exists h1, f, (h2 ++ h'). rewrite <- app_assoc. auto. Qed.
Lemma offers_sets E f k d k' : offers E f k d -> sets k' f = true -> k' = k.
Proof. destruct 1; cbn [sets]; apply Z.eqb_eq. Qed.

Definition state_ok (E : float_lib) (h : list (op * ret)) (c : context) : Prop := forall k,
  match cfind k (contracts c) with
  | None => ~ is_set k h
  | Some a => exists d c0, abi_of E h k d /\ convert d = Ok c0 /\ after_lookups c0 a
  end.
Lemma state_ok_step E h c f r c' : state_ok E h c -> call E (Some c) f (Some c') (Returns r) -> state_ok E (h ++ [(f, r)]) c'.
Proof.
  intros I H k. specialize (I k). apply call_effect in H as [(k1 & d & a & O & S & [= ->] & Cv & ->)|[N K]].
  - rewrite cfind_insert. destruct (Z.eqb_spec k k1) as [->|Nk].
    + destruct (cfind k1 (contracts c)) as [x|].
      * destruct I as (d0 & c0 & A & B & D). exists d0, c0. split; [now apply abi_of_more|auto].
      * exists d, a. split; [|split; [exact Cv|constructor]]. exists h, f, []. auto.
    + destruct (cfind k (contracts c)) as [x|].
      * destruct I as (d0 & c0 & A & B & D). exists d0, c0. split; [now apply abi_of_more|auto].
      * rewrite is_set_snoc. intros [X|[_ X]]; [contradiction|]. now apply (offers_sets _ _ _ _ _ O) in X.
  - assert (G : match cfind k (contracts c) with None => ~ is_set k (h ++ [(f, r)]) | Some a => exists d c0, abi_of E (h ++ [(f, r)]) k d /\ convert d = Ok c0 /\ after_lookups c0 a end).
    { destruct (cfind k (contracts c)) as [x|]; [destruct I as (d0 & c0 & A & B & D); exists d0, c0; split; [now apply abi_of_more|auto]|].
      rewrite is_set_snoc. intros [X|[X Y]]; [contradiction|]. exact (N k Y X). }
    destruct K as [->|(k1 & a & a' & Fd & L & ->)]; [exact G|]. rewrite cfind_update. destruct (Z.eqb_spec k k1) as [->|]; [|exact G].
    rewrite Fd in *. destruct G as (d0 & c0 & A & B & D). exists d0, c0. split; [exact A|]. split; [exact B|]. eapply looks_up_after; eauto.
Qed.
Lemma run_ok E h0 c h c' : run E c h c' -> state_ok E h0 c -> state_ok E (h0 ++ h) c'.
Proof.
  intros R. revert h0. induction R as [c|c f c1 r h c2 H R IH]; intros h0 I; [now rewrite app_nil_r|].
  change ((f, r) :: h) with ([(f, r)] ++ h). rewrite app_assoc. apply IH. eapply state_ok_step; eauto.
Qed.
Lemma reached_ok E h c : reached E h c -> state_ok E h c.
Proof. intros R. apply (run_ok E [] create h c R). intros k (f & [] & _). Qed.
Lemma offers_fun E f k d d' : offers E f k d -> offers E f k d' -> d = d'.
Proof. intros A B. destruct A; inversion B; subst; congruence. Qed.
Lemma abi_of_fun E h k d d' : abi_of E h k d -> abi_of E h k d' -> d = d'.
Proof.
  intros (h1 & f & h2 & -> & N & S & O) (h1' & f' & h2' & Q & N' & S' & O').
  revert h1' Q N'. induction h1 as [|x h1 IH]; intros [|y h1'] Q N'; cbn [app] in Q.
  - injection Q as <- _. eapply offers_fun; eauto.
  - injection Q as <- _. destruct N'. exists f. split; [now left|exact S].
  - injection Q as -> _. destruct N. exists f'. split; [now left|exact S'].
  - injection Q as -> Q. apply (IH (fun X => N ltac:(destruct X as (g & X & Y); exists g; split; [right; exact X|exact Y])) h1' Q).
    intros (g & X & Y). apply N'. exists g. split; [right; exact X|exact Y].
Qed.
Lemma reached_abi E h c k d : reached E h c -> abi_of E h k d ->
  exists a c0, cfind k (contracts c) = Some a /\ convert d = Ok c0 /\ after_lookups c0 a.
Proof.
  intros R A. pose proof (reached_ok E h c R k) as I. destruct (cfind k (contracts c)) as [a|].
  - destruct I as (d0 & c0 & B & Cv & L). rewrite (abi_of_fun _ _ _ _ _ A B). eauto.
  - destruct I. eapply abi_of_set; eauto.
Qed.
Lemma reached_none E h c k : reached E h c -> ~ is_set k h -> cfind k (contracts c) = None.
Proof.
  intros R N. pose proof (reached_ok E h c R k) as I. destruct (cfind k (contracts c)) as [a|]; [|reflexivity].
  destruct I as (d & _ & A & _). destruct N. eapply abi_of_set; eauto.
Qed.
(** A contract is set or not, and if it is, one ABI is its ABI. *)
Lemma reached_cases E h c k : reached E h c -> ~ is_set k h \/ exists d, abi_of E h k d.
Proof. intros R. pose proof (reached_ok E h c R k) as I. destruct (cfind k (contracts c)); [right|now left]. destruct I as (d & _ & A & _). eauto. Qed.

(** ** Using a contract *)
Lemma get_type_keeps a t p a' : abi_get_type a t = Ok (p, a') -> action_types a' = action_types a /\ table_types a' = table_types a.
Proof. unfold abi_get_type. destruct (get_type 32 (abi_types a) t) as [[q m]| |]; cbn [bind]; try discriminate. intros [= _ <-]. auto. Qed.
Lemma after_lookups_keeps c a : after_lookups c a -> action_types a = action_types c /\ table_types a = table_types c.
Proof.
  induction 1 as [|c1 c2 t p _ IH H|c1 t e _ IH H]; [auto| |exact IH].
  apply get_type_keeps in H as [-> ->]. exact IH.
Qed.
(** Two lookups of the same text after different histories. *)
Lemma lookups_agree d c0 a1 a2 t : convert d = Ok c0 -> after_lookups c0 a1 -> after_lookups c0 a2 ->
  match abi_get_type a1 t, abi_get_type a2 t with
  | Ok (p, b1), Ok (q, b2) => p = q /\ both (abi_types b1) (abi_types b2) p /\
      (forall p d q, both (abi_types b1) (abi_types b2) p -> afind p (abi_types b1) = Some d -> In q (pointers d) -> both (abi_types b1) (abi_types b2) q) /\
      loaded d t p (abi_types b1) /\ denotes d t p
  | Err _, Err _ => forall p, ~ denotes d t p
  | _, _ => False
  end.
Proof.
  intros Cv A1 A2. pose proof (C26_lookup d c0 a1 t Cv A1) as [_ L1]. pose proof (C26_lookup d c0 a2 t Cv A2) as [_ L2].
  assert (F : functional d) by (pose proof (convert_total d) as T; rewrite Cv in T; destruct T as (ND & _); now apply names_functional).
  destruct (abi_get_type a1 t) as [[p b1]|e1|w1] eqn:G1; [|destruct L1 as [_ L1]|contradiction];
    (destruct (abi_get_type a2 t) as [[q b2]|e2|w2]; [|destruct L2 as [_ L2]|contradiction]).
  - destruct L1 as (D1 & P1 & F1), L2 as (D2 & P2 & F2). pose proof (C26_meaning_unique d c0 t p q Cv D1 D2) as ->. split; [reflexivity|].
    split; [eapply faithful_both; eauto|]. split; [eapply faithful_closed; eauto|]. split; [|exact D1]. exists c0, a1, b1. auto.
  - destruct L1 as (D & _). exact (L2 _ D).
  - destruct L2 as (D & _). exact (L1 _ D).
  - exact L1.
Qed.
Lemma both_sym m m' p : both m m' p -> both m' m p.
Proof. intros (d & A & B). now exists d. Qed.

(** The same call on two contexts whose contracts have the same definition. *)
Definition same_end (e1 e2 : ended) : Prop :=
  match e1, e2 with Throws _, Throws _ => True | _, _ => e1 = e2 end.
Lemma json_same E conv k1 k2 t j c1 c2 d c0 a1 a2 c1' c2' e1 e2 :
  conv = json_to_bin E \/ conv = json_to_bin_reorderable E ->
  cfind k1 (contracts c1) = Some a1 -> cfind k2 (contracts c2) = Some a2 ->
  convert d = Ok c0 -> after_lookups c0 a1 -> after_lookups c0 a2 ->
  json_body conv k1 t j c1 c1' e1 -> json_body conv k2 t j c2 c2' e2 ->
  same_end e1 e2 /\ (e1 = Value (R_bool true) -> result_bin c1' = result_bin c2') /\
  ((exists p, denotes d t p) -> e1 = e2 /\ result_bin c1' = result_bin c2' /\ last_error c1' = last_error c2').
Proof.
  intros K F1 F2 Cv A1 A2. unfold json_body. cbn [with_error contracts]. rewrite F1, F2. pose proof (lookups_agree d c0 a1 a2 t Cv A1 A2) as L.
  destruct (abi_get_type a1 t) as [[p b1]|x1|w1]; (destruct (abi_get_type a2 t) as [[q b2]|x2|w2]; [| |contradiction]); try contradiction.
  - destruct L as (-> & Bo & Cl & _). intros (q1 & C1 & H1) (q2 & C2 & H2).
    assert (q1 = q2) as <-.
    { destruct K as [->| ->].
      - apply (json_to_bin_same E (abi_types b1) (abi_types b2) Cl q j [] q1 Bo) in C1. eapply json_to_bin_fun; eauto.
      - apply (reorderable_same E (abi_types b1) (abi_types b2) Cl q j [] q1 Bo) in C1. eapply reorderable_fun; eauto. }
    destruct q1; destruct H1 as [-> ->], H2 as [-> ->]; cbn; auto.
  - intros [-> ->] [-> ->]. split; [exact Logic.I|]. split; [discriminate|]. intros [p D]. now destruct (L p).
Qed.
Lemma bin_same E k1 k2 t b c1 c2 d c0 a1 a2 c1' c2' e1 e2 :
  cfind k1 (contracts c1) = Some a1 -> cfind k2 (contracts c2) = Some a2 ->
  convert d = Ok c0 -> after_lookups c0 a1 -> after_lookups c0 a2 ->
  bin_to_json_body E k1 t b c1 c1' e1 -> bin_to_json_body E k2 t b c2 c2' e2 ->
  same_end e1 e2 /\ ((exists p, denotes d t p) -> e1 = e2 /\ last_error c1' = last_error c2').
Proof.
  intros F1 F2 Cv A1 A2. unfold bin_to_json_body. cbn [with_error contracts]. rewrite F1, F2. pose proof (lookups_agree d c0 a1 a2 t Cv A1 A2) as L.
  destruct (abi_get_type a1 t) as [[p b1]|x1|w1]; (destruct (abi_get_type a2 t) as [[q b2]|x2|w2]; [| |contradiction]); try contradiction.
  - destruct L as (-> & Bo & Cl & _). intros (q1 & C1 & H1) (q2 & C2 & H2).
    assert (q1 = q2) as <- by (apply (bin_to_json_same E (abi_types b1) (abi_types b2) Cl q _ q1 Bo) in C1; eapply C28_deterministic; eauto).
    destruct q1 as [[tx rs]| |]; destruct H1 as [-> ->], H2 as [-> ->]; cbn; auto. destruct (beq rs []); cbn; auto.
  - intros [-> ->] [-> ->]. split; [exact Logic.I|]. intros [p D]. now destruct (L p).
Qed.
Definition known_type (d : abi_def) (u : use) : Prop :=
  match u with
  | Use_json t _ | Use_json_reorderable t _ | Use_bin t _ | Use_hex t _ => exists p, denotes d (text_arg t) p
  | Use_action _ | Use_table _ => False
  end.
Definition context_of (x : option context) : context := match x with Some c => c | None => create end.
Lemma use_same E k1 k2 u c1 c2 d c0 a1 a2 x1 x2 o1 o2 :
  cfind k1 (contracts c1) = Some a1 -> cfind k2 (contracts c2) = Some a2 ->
  convert d = Ok c0 -> after_lookups c0 a1 -> after_lookups c0 a2 ->
  call E (Some c1) (use_op k1 u) x1 o1 -> call E (Some c2) (use_op k2 u) x2 o2 ->
  o1 = o2 /\ (o1 = Returns (R_bool true) -> result_bin (context_of x1) = result_bin (context_of x2)) /\
  (known_type d u -> last_error (context_of x1) = last_error (context_of x2)).
Proof.
  intros F1 F2 Cv A1 A2.
  assert (J : forall conv t j, conv = json_to_bin E \/ conv = json_to_bin_reorderable E ->
    handle_exceptions (Some c1) (R_bool false) (json_body conv k1 (text_arg t) j) x1 o1 ->
    handle_exceptions (Some c2) (R_bool false) (json_body conv k2 (text_arg t) j) x2 o2 ->
    o1 = o2 /\ (o1 = Returns (R_bool true) -> result_bin (context_of x1) = result_bin (context_of x2)) /\
    ((exists p, denotes d (text_arg t) p) -> last_error (context_of x1) = last_error (context_of x2))).
  { intros conv t j K (c1' & e1 & B1 & H1) (c2' & e2 & B2 & H2).
    destruct (json_same E conv k1 k2 _ j c1 c2 d c0 a1 a2 c1' c2' e1 e2 K F1 F2 Cv A1 A2 B1 B2) as (S & R & L).
    destruct e1, e2; cbn [same_end] in S; try discriminate; destruct H1 as [-> ->], H2 as [-> ->]; cbn [context_of with_error last_error result_bin].
    - split; [congruence|]. split; [intros Q; apply R; congruence|]. intros D. now apply L.
    - split; [reflexivity|]. split; [discriminate|]. intros D. destruct (L D) as ([= ->] & _). reflexivity.
    - split; [congruence|]. split; [discriminate|]. intros D. now apply L. }
  assert (B : forall t b, bin_to_json_call E (Some c1) k1 t b x1 o1 -> bin_to_json_call E (Some c2) k2 t b x2 o2 ->
    o1 = o2 /\ (o1 = Returns (R_bool true) -> result_bin (context_of x1) = result_bin (context_of x2)) /\
    ((exists p, denotes d (text_arg t) p) -> last_error (context_of x1) = last_error (context_of x2))).
  { intros t b (c1' & e1 & B1 & H1) (c2' & e2 & B2 & H2).
    destruct (bin_same E k1 k2 _ b c1 c2 d c0 a1 a2 c1' c2' e1 e2 F1 F2 Cv A1 A2 B1 B2) as (S & L).
    destruct e1, e2; cbn [same_end] in S; try discriminate; destruct H1 as [-> ->], H2 as [-> ->]; cbn [context_of with_error last_error result_bin].
    - split; [congruence|]. split; [|intros D; now apply L]. intros [= ->]. exfalso. clear - B1.
      unfold bin_to_json_body in B1. destruct (cfind _ _); [|destruct B1; discriminate]. destruct (abi_get_type _ _) as [[? ?]| |]; try (destruct B1; discriminate).
      destruct B1 as (q & _ & H). destruct q as [[? rs]| |]; destruct H as [_ H]; try discriminate. destruct (beq rs []); discriminate.
    - split; [reflexivity|]. split; [discriminate|]. intros D. destruct (L D) as ([= ->] & _). reflexivity.
    - split; [congruence|]. split; [discriminate|]. intros D. now apply L. }
  destruct u; cbn [use_op call known_type].
  - apply J. now left.
  - apply J. now right.
  - apply B.
  - unfold handle_exceptions at 1 2. intros (c1' & e1 & B1 & H1) (c2' & e2 & B2 & H2). destruct (unhex (text_arg hex)) as [b|].
    + destruct B1 as (q1 & B1 & ->), B2 as (q2 & B2 & ->).
      assert (x1 = Some c1' /\ o1 = q1) as [-> ->] by (destruct q1; exact H1). assert (x2 = Some c2' /\ o2 = q2) as [-> ->] by (destruct q2; exact H2).
      now apply (B type (Some b)).
    + destruct B1 as [-> ->], B2 as [-> ->]. destruct H1 as [-> ->], H2 as [-> ->]. split; [reflexivity|]. split; [discriminate|reflexivity].
  - intros (c1' & e1 & [-> ->] & H1) (c2' & e2 & [-> ->] & H2). rewrite F1 in H1. rewrite F2 in H2.
    rewrite (proj1 (after_lookups_keeps _ _ A1)) in H1. rewrite (proj1 (after_lookups_keeps _ _ A2)) in H2.
    destruct (zfind action (action_types c0)); destruct H1 as [-> ->], H2 as [-> ->]; (split; [reflexivity|]; split; [discriminate|contradiction]).
  - intros (c1' & e1 & [-> ->] & H1) (c2' & e2 & [-> ->] & H2). rewrite F1 in H1. rewrite F2 in H2.
    rewrite (proj2 (after_lookups_keeps _ _ A1)) in H1. rewrite (proj2 (after_lookups_keeps _ _ A2)) in H2.
    destruct (zfind table (table_types c0)); destruct H1 as [-> ->], H2 as [-> ->]; (split; [reflexivity|]; split; [discriminate|contradiction]).
Qed.
(** Contracts without an ABI cannot be used. *)
Definition refused (u : use) : ret := match u with Use_json _ _ | Use_json_reorderable _ _ => R_bool false | _ => R_text None end.
Lemma use_none E k u c x o : cfind k (contracts c) = None -> call E (Some c) (use_op k u) x o -> o = Returns (refused u).
Proof.
  intros F. destruct u; cbn [use_op call refused].
  - intros (c' & e & B & H). unfold json_body in B. cbn [with_error contracts] in B. rewrite F in B. destruct B as [-> ->]. now destruct H.
  - intros (c' & e & B & H). unfold json_body in B. cbn [with_error contracts] in B. rewrite F in B. destruct B as [-> ->]. now destruct H.
  - intros (c' & e & B & H). unfold bin_to_json_body in B. cbn [with_error contracts] in B. rewrite F in B. destruct B as [-> ->]. now destruct H.
  - intros (c' & e & B & H). destruct (unhex (text_arg hex)) as [b|]; [|destruct B as [-> ->]; now destruct H].
    destruct B as (q & (c2 & e2 & B & H2) & ->). unfold bin_to_json_body in B. cbn [with_error contracts] in B. rewrite F in B. destruct B as [-> ->].
    destruct H2 as [_ ->]. now destruct H.
  - intros (c' & e & [-> ->] & H). rewrite F in H. now destruct H.
  - intros (c' & e & [-> ->] & H). rewrite F in H. now destruct H.
Qed.
