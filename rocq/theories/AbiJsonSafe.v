(** * Undefined behaviour in the conversion JSON -> binary (proofs only) *)
From Verif Require Import Base Stream StreamFacts TypedBin TypedSpec Asset Time Hex Keys KeysFacts Base58 Ripemd160 JsonInt JsonIntFacts Prop_JsonInt Json JsonSpec JsonPrint Abi AbiSpec AbiScalar AbiScalarFacts AbiValue AbiRead Machine AbiBin AbiBinFacts AbiBinSound AbiJson AbiJsonFacts AbiJsonSound.

Lemma bind_undef {A B} (x : res A) (f : A -> res B) w : bind x f = Undef w -> x = Undef w \/ exists a, x = Ok a /\ f a = Undef w.
Proof. destruct x; cbn [bind]; intros H; [right; eauto|discriminate|left; congruence]. Qed.
Lemma check_undef c e w : check c e <> Undef w.
Proof. unfold check. destruct c; discriminate. Qed.

(** The hazard: a date whose day number times 86400 does not fit an int. *)
Definition date_hazard (E : float_lib) (w : string) : Prop := w = "signed overflow"%string /\ ov E = Strict.

Lemma base58_in_defined : forall s r w, base58_digits_in s r <> Undef w.
Proof.
  induction s as [|c s IH]; intros r w; cbn [base58_digits_in]; [discriminate|]. cbv zeta. intros H.
  apply bind_undef in H as [H|(a & _ & H)]; [now apply check_undef in H|]. now apply IH in H.
Qed.
Lemma base58_defined s w : base58_to_binary s <> Undef w.
Proof. unfold base58_to_binary. intros H. apply bind_undef in H as [H|(a & _ & H)]; [now apply base58_in_defined in H|discriminate]. Qed.
Lemma ripemd_defined d s w : digest_suffix_ripemd160 d s <> Undef w.
Proof. unfold digest_suffix_ripemd160. destruct (ripemd160_digest _); discriminate. Qed.
Lemma key_read_defined t s w : tame t = true -> convert_from_bin key_env 0 t s <> Undef w.
Proof.
  unfold convert_from_bin. intros T H. apply bind_undef in H as [H|([v r] & _ & H)]; [|discriminate].
  cbn [from_bin] in H. eapply tame_no_undef; eauto.
Qed.
Lemma string_to_key_defined t s ty sf w : tame t = true -> string_to_key t s ty sf <> Undef w.
Proof.
  intros T H. unfold string_to_key in H. cbv zeta in H.
  apply bind_undef in H as [H|(d & _ & H)]; [now apply base58_defined in H|].
  apply bind_undef in H as [H|(? & _ & H)]; [now apply check_undef in H|].
  apply bind_undef in H as [H|(r & _ & H)]; [now apply ripemd_defined in H|].
  apply bind_undef in H as [H|(? & _ & H)]; [now apply check_undef in H|]. now apply key_read_defined in H.
Qed.
Lemma utc_at_undef md a b s w : string_to_utc_seconds_at md a b s = Undef w -> w = "signed overflow"%string /\ md = Strict.
Proof.
  unfold string_to_utc_seconds_at. destruct (parse_fields s) as [[[[[[[y mo] d] h] mi] sec] r]|]; [|discriminate]. intros H.
  apply bind_undef in H as [H|(? & _ & H)]; [|discriminate]. unfold utc_seconds in H.
  apply bind_undef in H as [H|(? & _ & H)]; [|discriminate]. unfold int32_op in H.
  destruct (fits_s _ _); [discriminate|]. destruct md; [|discriminate]. split; congruence.
Qed.
Lemma time_point_undef md s w : time_point_from_json_string md s = Undef w -> w = "signed overflow"%string /\ md = Strict.
Proof.
  unfold time_point_from_json_string, string_to_utc_microseconds, string_to_utc_microseconds_at. intros H.
  apply bind_undef in H as [H|([] & _ & H)]; [|discriminate|discriminate].
  apply bind_undef in H as [H|(? & _ & H)]; [|discriminate].
  apply bind_undef in H as [H|([[? r]|] & _ & H)]; [now apply utc_at_undef in H| |discriminate].
  cbv zeta in H. destruct r as [|c r]; [discriminate|]. destruct (negb _); [discriminate|]. destruct (fraction_us _ _ _ _); discriminate.
Qed.
Lemma hex_defined s w : from_json_hex s <> Undef w.
Proof.
  unfold from_json_hex. intros H. apply bind_undef in H as [H|(? & _ & H)]; [now apply check_undef in H|].
  destruct (unhex s); discriminate.
Qed.
Lemma fixed_defined n s w : fixed_from_json n s <> Undef w.
Proof.
  unfold fixed_from_json. intros H. apply bind_undef in H as [H|(d & _ & H)]; [now apply hex_defined in H|].
  apply bind_undef in H as [H|(? & _ & H)]; [now apply check_undef in H|discriminate].
Qed.
Lemma vint_undef r w : vint r = Undef w -> r = Undef w.
Proof. unfold vint. intros H. apply bind_undef in H as [H|(? & _ & H)]; [auto|discriminate]. Qed.

Lemma scalar_text_undef E b s w : b <> B_bool -> scalar_from_text E b s = Undef w -> date_hazard E w.
Proof.
  intros Hb H.
  assert (Int : forall sg n, int_size n -> vint (from_json_int sg n s) <> Undef w).
  { intros sg n Hn X. apply vint_undef in X. now apply C20_defined in X. }
  assert (Fp : forall n, fp_from_json E n s <> Undef w).
  { intros n X. unfold fp_from_json in X. apply bind_undef in X as [X|(? & _ & X)]; [now apply check_undef in X|].
    destruct (fl_parse E n s); discriminate. }
  assert (K : forall t s i sf, tame t = true -> string_to_key t s i sf <> Undef w) by (intros; now apply string_to_key_defined).
  destruct b; cbn [scalar_from_text] in H; try congruence;
    try (exfalso; eapply Int; [|exact H]; cbv; tauto); try (exfalso; eapply Fp; exact H); try (exfalso; eapply fixed_defined; exact H).
  - apply vint_undef, time_point_undef in H. exact H.
  - apply vint_undef in H. unfold time_point_sec_from_json_string, string_to_utc_seconds in H.
    apply bind_undef in H as [H|([] & _ & H)]; [|discriminate|discriminate].
    apply bind_undef in H as [H|(? & _ & H)]; [|discriminate]. now apply utc_at_undef in H.
  - apply vint_undef in H. unfold block_timestamp_from_json_string in H.
    apply bind_undef in H as [H|(? & _ & H)]; [|discriminate]. now apply time_point_undef in H.
  - apply bind_undef in H as [H|(? & _ & H)]; [|discriminate]. now apply hex_defined in H.
  - unfold public_key_from_string in H. repeat (destruct (starts _ _); [now apply K in H|]). discriminate.
  - unfold private_key_from_string in H. repeat (destruct (starts _ _); [try discriminate; now apply K in H|]).
    apply bind_undef in H as [H|(d & _ & H)]; [now apply base58_defined in H|].
    apply bind_undef in H as [H|(? & _ & H)]; [now apply check_undef in H|]. now apply key_read_defined in H.
  - unfold signature_from_string in H. repeat (destruct (_ && _); [now apply K in H|]). discriminate.
  - apply vint_undef in H. unfold symbol_from_json_string in H. destruct (string_to_symbol s); discriminate.
  - apply vint_undef in H. unfold symbol_code_from_json_string in H. destruct (string_to_symbol_code s); discriminate.
  - unfold asset_from_json_string in H. destruct (string_to_asset s) as [[? ?]|]; discriminate.
Qed.

Section Safe.
  Variables (E : float_lib) (m : amap).
  Hypothesis SM : sound_map m.
  Notation jr := (jread E m).

  Lemma ptr_in p d q : afind p m = Some d -> In q (pointers d) -> type_in m q.
  Proof. exact (sm_ptr m SM p d q). Qed.
  Lemma is_ext_defined q w : type_in m q -> is_ext_type m q <> Undef w.
  Proof. intros (e & He & _). unfold is_ext_type, deref. rewrite He. discriminate. Qed.

  (** The recursion uses only values inside [j]. *)
  Definition rec_safe (rec : jrec) (P : jv -> Prop) : Prop :=
    forall ext q j w, type_in m q -> P j -> rec ext q j = Undef w -> date_hazard E w.
  Lemma jfields_safe rec ext : rec_safe rec arrays_ok -> forall l fs w, Forall (fun x => type_in m (snd x)) fs ->
    Forall (fun x => arrays_ok (snd x)) l -> jfields m rec ext fs l = Undef w -> date_hazard E w.
  Proof.
    intros R. induction l as [|[k j] l IH]; intros fs w Hf Hl H; cbn [jfields] in H.
    - destruct fs as [|[n q] fs]; [discriminate|]. inversion Hf; subst.
      apply bind_undef in H as [H|(? & _ & H)]; [now apply is_ext_defined in H|].
      apply bind_undef in H as [H|(? & _ & H)]; [now apply check_undef in H|discriminate].
    - destruct fs as [|[n q] fs]; [discriminate|]. inversion Hf; inversion Hl; subst.
      apply bind_undef in H as [H|(? & _ & H)]; [now apply check_undef in H|].
      apply bind_undef in H as [H|(? & _ & H)]; [eapply R; eauto|].
      apply bind_undef in H as [H|(? & _ & H)]; [eapply IH; eauto|discriminate].
  Qed.
  Lemma jitems_safe rec q : rec_safe rec arrays_ok -> type_in m q -> forall l pos w, Forall arrays_ok l -> pos + Z.of_nat (List.length l) <= 2 ^ 31 ->
    jitems rec q l pos = Undef w -> date_hazard E w.
  Proof.
    intros R Hq. induction l as [|j l IH]; intros pos w Hl Hp H; cbn [jitems] in H; [discriminate|].
    cbn [List.length] in Hp. destruct (Z.ltb_spec pos (2 ^ 31)); [|lia]. cbn [bind] in H. inversion Hl; subst.
    apply bind_undef in H as [H|(? & _ & H)]; [eapply R; eauto|].
    apply bind_undef in H as [H|(? & _ & H)]; [|discriminate]. eapply IH; [| |exact H]; [assumption|lia].
  Qed.
  Lemma jvariant_safe rec ext fs : rec_safe rec arrays_ok -> Forall (fun x => type_in m (snd x)) fs -> forall l w, Forall arrays_ok l ->
    jvariant rec ext fs l = Undef w -> date_hazard E w.
  Proof.
    intros R Hf l w Hl H. unfold jvariant in H. destruct l as [|x l]; [discriminate|]. inversion Hl; subst.
    destruct (text_of x); [|discriminate]. destruct (find_name b fs 0) as [[i q]|] eqn:F; [|discriminate].
    apply bind_undef in H as [H|(? & _ & H)]; [now apply check_undef in H|].
    destruct l as [|y l]; [discriminate|]. match goal with H : Forall _ (_ :: _) |- _ => inversion H; subst end.
    apply bind_undef in H as [H|(? & _ & H)]; [|destruct l; discriminate].
    eapply R; [|eassumption|exact H]. apply find_name_nth in F. apply nthz_In in F. rewrite Forall_forall in Hf. apply (Hf _ F).
  Qed.
  Lemma jlimit_safe : rec_safe jlimit arrays_ok. Proof. intros ext q j w _ _ H. discriminate. Qed.
  Lemma fields_in p fs : afind p m = Some (AStruct fs) \/ afind p m = Some (AVariant fs) -> Forall (fun x => type_in m (snd x)) fs.
  Proof.
    intros H. rewrite Forall_forall. intros x Hx. destruct H as [H|H]; eapply ptr_in; eauto; cbn [pointers]; now apply in_map.
  Qed.
  Lemma jcont_safe rec p d ext j w : rec_safe rec arrays_ok -> afind p m = Some d -> container d = true -> arrays_ok j ->
    jcont m rec ext d j = Undef w -> date_hazard E w.
  Proof.
    intros R Hp Hd Hj H. destruct d; try discriminate Hd; cbn [jcont] in H; destruct j; try discriminate H; inversion Hj; subst.
    - apply bind_undef in H as [H|(? & _ & H)]; [|discriminate]. eapply jitems_safe; [exact R| | | |exact H]; auto.
      eapply ptr_in; eauto. left. reflexivity.
    - apply bind_undef in H as [H|(? & _ & H)]; [|discriminate]. eapply jfields_safe; [exact R| | |exact H]; auto.
      eapply fields_in; eauto.
    - eapply jvariant_safe; [exact R| | |exact H]; auto. eapply fields_in; eauto.
  Qed.
  Lemma jfull_safe p d ext j w : afind p m = Some d -> container d = true -> arrays_ok j ->
    jfull m ext d j = Undef w -> date_hazard E w.
  Proof.
    intros Hp Hd Hj H. destruct d; try discriminate Hd; cbn [jfull] in H; destruct j; try discriminate H; inversion Hj; subst.
    apply bind_undef in H as [H|(? & _ & H)]; [|discriminate]. eapply jfields_safe; [apply jlimit_safe| | |exact H]; auto.
    eapply fields_in; eauto.
  Qed.
  Lemma jread_safe : forall k, rec_safe (jr k) arrays_ok.
  Proof.
    induction k as [k IH] using (well_founded_induction lt_wf).
    assert (C : forall ext p j w d, afind p m = Some d -> container d = true -> arrays_ok j -> jctx E m k ext d j = Undef w -> date_hazard E w).
    { intros ext p j w d Hp Hd Hj H. destruct k as [|k]; [eapply jfull_safe; eauto|]. eapply jcont_safe; eauto. }
    assert (G : forall c ext p j w, chain_ok m c p -> type_in m p -> arrays_ok j -> jchain E m (jctx E m k) c ext p j = Undef w -> date_hazard E w).
    { induction c as [|c IHc]; intros ext p j w Hc Hp Hj H; [destruct Hc|].
      destruct Hp as (d & Hp & Na). cbn [chain_ok] in Hc. rewrite jchain_S in H. unfold deref in H. rewrite Hp in *. cbn [bind] in H.
      pose proof (sm_nodef m SM p d Hp) as Nd.
      destruct d as [b| | | |q|q|q|q|fs|fs]; try discriminate Nd; try (exfalso; eapply Na; reflexivity).
      - destruct b; try (destruct j; discriminate); destruct (text_of j); try discriminate;
          (apply bind_undef in H as [H|(? & _ & H)]; [|discriminate]); (eapply scalar_text_undef; [|exact H]; discriminate).
      - destruct j; try discriminate; (apply bind_undef in H as [H|(? & _ & H)]; [|discriminate]);
          (eapply IHc; [exact Hc| |exact Hj|exact H]; eapply ptr_in; eauto; left; reflexivity).
      - eapply IHc; [exact Hc| |exact Hj|exact H]; eapply ptr_in; eauto; left; reflexivity.
      - eapply C; eauto.
      - eapply C; eauto.
      - eapply C; eauto. }
    intros ext p j w Hp Hj H. rewrite (jr_3 E m SM) in H. eapply G; eauto. now apply chain3.
  Qed.
End Safe.
