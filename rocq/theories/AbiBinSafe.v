(** * Outcomes of the binary -> JSON machine for every table, also with extension fields
    in front of others (proofs only) *)
From Verif Require Import Base Stream StreamFacts TypedBin TypedSpec TypedBinFacts TypedBinSound TypedBinLocal BinLemmas
  Json JsonSpec Keys Abi AbiSpec AbiFacts AbiLoad AbiScalar AbiScalarFacts AbiValue Machine AbiBin AbiBinFacts AbiBinSound.

Section Safe.
  Variables (E : float_lib) (m : amap).
  Hypothesis SM : sound_map m.
  Notation bv := (bval E m).
  Definition prefix_read (bs : bytes) (t rest : bytes) : Prop := exists pre, bs = pre ++ rest.
  Definition safe_at k := forall ext p bs, type_in m p -> small bs -> read_ok (prefix_read bs) (bv k ext p bs).
  Lemma prefix_trans a b c t t' : prefix_read a t b -> prefix_read b t' c -> exists pre, a = pre ++ c.
  Proof. intros [x ->] [y ->]. exists (x ++ y). apply app_assoc. Qed.
  Lemma small_suffix a t b : small a -> prefix_read a t b -> small b.
  Proof. intros H [x ->]. apply small_app in H. tauto. Qed.
  Lemma ptr_type p d q : afind p m = Some d -> In q (pointers d) -> type_in m q.
  Proof. intros Hp Hq. exact (sm_ptr m SM p d q Hp Hq). Qed.

  Lemma bfields_safe k ext : safe_at k -> forall fs first bs, Forall (fun f => type_in m (snd f)) fs -> small bs ->
    read_ok (prefix_read bs) (bfields m (bv k) ext fs first bs).
  Proof.
    intros R. induction fs as [|[name q] fs IH]; intros first bs P Hs.
    - cbn [bfields read_ok]. exists []. reflexivity.
    - inversion P as [|? ? Pq Pf]; subst. cbn [snd] in Pq. cbn [bfields]. destruct (type_in_ext_type m q Pq) as [x Hx]. rewrite Hx. cbn [bind].
      destruct (beq bs [] && x && ext); [apply IH; auto|].
      pose proof (R (ext && is_nil fs) q bs Pq Hs) as RV. destruct (bv k (ext && is_nil fs) q bs) as [[o r]|e|w]; cbn [bind read_ok] in *; auto.
      specialize (IH false r Pf (small_suffix _ _ _ Hs RV)). destruct (bfields m (bv k) ext fs false r) as [[o' rest]|e|w]; cbn [bind read_ok] in *; auto.
      exact (prefix_trans _ _ _ _ _ RV IH).
  Qed.
  Lemma bitems_safe k q : safe_at k -> type_in m q -> forall n pos bs, small bs -> read_ok (prefix_read bs) (bitems (bv k) q n pos bs).
  Proof.
    intros R Pq. induction n as [|n IH]; intros pos bs Hs; cbn [bitems]; destruct (Z.ltb_spec pos (2 ^ 31)) as [Lp|Lp]; cbn [bind read_ok]; try exact overflow_in.
    - exists []. reflexivity.
    - pose proof (R false q bs Pq Hs) as RV. destruct (bv k false q bs) as [[o r]|e|w]; cbn [bind read_ok] in *; auto.
      specialize (IH (pos + 1) r (small_suffix _ _ _ Hs RV)). destruct (bitems (bv k) q n (pos + 1) r) as [[o' rest]|e|w]; cbn [bind read_ok] in *; auto.
      exact (prefix_trans _ _ _ _ _ RV IH).
  Qed.

  Lemma safe_close k : (forall ext p bs d, afind p m = Some d -> container d = true -> small bs -> read_ok (prefix_read bs) (bv k ext p bs)) -> safe_at k.
  Proof.
    intros CONT.
    assert (BASE : forall ext p bs b, afind p m = Some (ABuiltin b) -> small bs -> read_ok (prefix_read bs) (bv k ext p bs)).
    { intros ext p bs b Hp Hs; rewrite (bv_base E m _ ext p bs b Hp); destruct Hs as [Hb Hl];
      pose proof (native_decode_sound key_env 0 (scalar_ty b) bs (fun _ => eq_refl) (scalar_ty_ok b) Hb Hl) as N;
      destruct (from_bin key_env 0 (scalar_ty b) bs) as [[v r]|e|w] eqn:F; cbn [bind read_ok];
      [|apply decode_error_in; exact N|apply scalar_read_undef in F; subst w; exact bool_in];
      destruct N as [_ W]; rewrite (scalar_to_json_spec E b v W); pose proof (scalar_jv_outcome E b v W) as O;
      destruct (scalar_jv E b v) as [j|e|w] eqn:J; cbn [bind read_ok]; [|apply print_error_in; exact O|apply print_hazard_in; exact O];
      destruct (scalar_local b _ _ _ F) as (pre & Ep & K); exists pre; exact Ep. }
    assert (PLAIN : forall ext p bs d, afind p m = Some d -> is_optional_array_extension d = false \/ container d = true -> (forall q, d <> AAlias q) -> small bs ->
              read_ok (prefix_read bs) (bv k ext p bs)).
    { intros ext p bs d Hp Hd Ha Hs. pose proof (sm_nodef m SM p d Hp) as ND.
      destruct d; try discriminate ND; try (destruct Hd; discriminate); eauto. exfalso. eapply Ha; eauto. }
    assert (OPT : forall ext p bs d, afind p m = Some d -> is_extension d = false -> (forall q, d <> AAlias q) -> small bs ->
              read_ok (prefix_read bs) (bv k ext p bs)).
    { intros ext p bs d Hp Hd Ha Hs.
      destruct d; try discriminate Hd; try (eapply PLAIN; eauto; fail); try (eapply CONT; eauto; fail).
      rewrite (bv_opt E m SM k ext p bs p0 Hp). destruct bs as [|b r]; cbn [read_u8 bind read_ok]; [apply decode_error_in; left; reflexivity|].
      destruct (Z.eqb_spec b 0) as [->|N0].
      - cbn [read_ok]. exists [0]. reflexivity.
      - destruct (Z.eqb_spec b 1) as [->|N1]; [|exact bool_in].
        destruct (ptr_type p _ p0 Hp ltac:(left; reflexivity)) as (e & He & Hea).
        pose proof (sm_opt m SM p p0 e Hp He) as Hopt. destruct (small_app [1] r Hs) as [_ Hr].
        pose proof (PLAIN ext p0 r e He (or_introl Hopt) Hea Hr) as P. destruct (bv k ext p0 r) as [[t rest]|x|w]; cbn [read_ok] in *; auto.
        destruct P as [pre ->]. exists (1 :: pre). reflexivity. }
    intros ext p bs (d & Hp & Ha) Hs. destruct (is_extension d) eqn:Hd; [|eapply OPT; eauto].
    destruct d; try discriminate Hd. rewrite (bv_ext E m SM k ext p bs p0 Hp).
    destruct (ptr_type p _ p0 Hp ltac:(left; reflexivity)) as (e & He & Hea).
    exact (OPT ext p0 bs e He (sm_ext m SM p p0 e Hp He) Hea Hs).
  Qed.

  Lemma bv_safe : forall k, safe_at k.
  Proof.
    induction k as [|k IH]; apply safe_close; intros ext p bs d Hp Hd Hs; rewrite (bv_cont E m _ ext p bs d Hp Hd); cbn [bctx].
    - destruct d; try discriminate; cbn [bfull]; try exact limit_in.
      pose proof (vu_read bs Hs) as V. destruct (varuint32_from_bin bs) as [[n r]|e|w]; cbn [bind read_ok]; [exact limit_in|exact V|contradiction].
    - destruct d; try discriminate; cbn [bcont].
      + pose proof (vu_read bs Hs) as V. destruct (varuint32_from_bin bs) as [[n r]|e|w]; cbn [bind read_ok]; [|exact V|contradiction].
        destruct V as (pn & -> & Kn & Hn). destruct (small_app _ _ Hs) as [_ Hr].
        pose proof (bitems_safe k p0 IH (ptr_type p _ p0 Hp ltac:(left; reflexivity)) (Z.to_nat n) 0 r Hr) as B.
        destruct (bitems (bv k) p0 (Z.to_nat n) 0 r) as [[o rest]|e|w]; cbn [bind read_ok] in *; auto.
        destruct B as [pre ->]. exists (pn ++ pre). apply app_assoc.
      + assert (P : Forall (fun f => type_in m (snd f)) fields).
        { apply Forall_forall. intros f Hf. apply (ptr_type p _ (snd f) Hp). cbn [pointers]. now apply in_map. }
        pose proof (bfields_safe k ext IH fields true bs P Hs) as B. destruct (bfields m (bv k) ext fields true bs) as [[o rest]|e|w]; cbn [bind read_ok] in *; auto.
      + pose proof (vu_read bs Hs) as V. destruct (varuint32_from_bin bs) as [[n r]|e|w]; cbn [bind read_ok]; [|exact V|contradiction].
        destruct V as (pn & -> & Kn & Hn). destruct (small_app _ _ Hs) as [_ Hr].
        destruct (nthz fields n) as [[name q]|] eqn:N; [|apply decode_error_in; right; right; right; left; reflexivity].
        assert (Pq : type_in m q). { apply (ptr_type p _ q Hp). cbn [pointers]. change q with (snd (name, q)). apply in_map. eapply nthz_In; eauto. }
        pose proof (IH ext q r Pq Hr) as B. destruct (bv k ext q r) as [[o rest]|e|w]; cbn [bind read_ok] in *; auto.
        destruct B as [pre ->]. exists (pn ++ pre). apply app_assoc.
  Qed.
End Safe.
