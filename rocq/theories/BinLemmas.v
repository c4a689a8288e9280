(** * Lemmas behind Prop_Bin (proofs only) *)
From Verif Require Import Base Stream StreamFacts TypedBin TypedSpec ValOrder TypedBinFacts TypedBinSound.

Lemma vu_vector v : 0 <= v < 2 ^ 32 -> varuint32_to_bin vector_stream v [] = Ok (encv v).
Proof.
  intros Hv. rewrite varuint32_to_bin_eq by lia. destruct (Z.ltb_spec v (2 ^ 32)); [|lia].
  rewrite (wbytes_write vector_stream hom_vector). reflexivity.
Qed.

Lemma vu32_min v enc' : 0 <= v < 2 ^ 32 -> bytes_ok enc' -> varuint32_from_bin enc' = Ok (v, []) ->
  (List.length (encv v) <= List.length enc')%nat.
Proof.
  intros Hv He H. rewrite varuint32_from_bin_eq in H by assumption.
  apply bind_Ok in H as [[l r] [E H]]. inversion H as [[H0 H1]]. subst r.
  apply leb_read_Ok in E as (-> & Hsh & Hn); auto. rewrite app_nil_r in *.
  pose proof (leb_value_bound l) as HB.
  assert (Hl : (0 < List.length l)%nat) by (destruct l; [contradiction|cbn; lia]).
  destruct (Nat.eq_dec (List.length l) 5) as [E5|N5].
  { rewrite E5. apply encv_len. }
  assert (128 ^ Z.of_nat (List.length l) <= 128 ^ 4) by (apply Z.pow_le_mono_r; lia).
  assert (128 ^ 4 < 2 ^ 32) by reflexivity.
  rewrite H0. rewrite Z.mod_small in H0 by lia. subst v.
  unfold encv. apply leb_minimal; try lia; try (rewrite Z.mod_small; lia).
Qed.

Lemma varuint32_roundtrip_full v rest :
  0 <= v < 2 ^ 32 -> bytes_ok rest ->
  exists bin,
    varuint32_to_bin vector_stream v [] = Ok bin /\
    varuint32_from_bin (bin ++ rest) = Ok (v, rest) /\
    varuint64_from_bin (bin ++ rest) = Ok (v, rest) /\
    (1 <= List.length bin <= 5)%nat /\
    (forall other, bytes_ok other -> varuint32_from_bin other = Ok (v, []) ->
       (List.length bin <= List.length other)%nat).
Proof.
  intros Hv Hr. exists (encv v). split; [now apply vu_vector|].
  split; [now apply varuint32_roundtrip|]. split; [now apply varuint64_roundtrip|].
  split; [apply encv_len|]. intros. now apply vu32_min.
Qed.
Lemma varuint32_writer_rejects S v s : 2 ^ 32 <= v < 2 ^ 64 ->
  varuint32_to_bin S v s = Err E_varuint_too_big.
Proof.
  intros Hv. rewrite varuint32_to_bin_eq by lia. destruct (Z.ltb_spec v (2 ^ 32)); [lia|reflexivity].
Qed.
Lemma varint32_roundtrip_full v rest :
  - 2 ^ 31 <= v < 2 ^ 31 -> bytes_ok rest ->
  exists bin,
    varint32_to_bin vector_stream v [] = Ok bin /\
    varint32_from_bin (bin ++ rest) = Ok (v, rest) /\
    (1 <= List.length bin <= 5)%nat /\
    varuint32_from_bin (bin ++ rest) = Ok (if v <? 0 then -2 * v - 1 else 2 * v, rest).
Proof.
  intros Hv Hr. exists (encv (zigzag v)). split.
  - unfold varint32_to_bin. apply vu_vector. now apply zigzag_range.
  - split; [now apply varint32_roundtrip|]. split; [apply encv_len|].
    rewrite <- zigzag_val by assumption. apply varuint32_roundtrip; auto. now apply zigzag_range.
Qed.

(** [n]-byte readers: acceptance and rejection. *)
Lemma varuint_reader_spec bits maxn f s :
  (f = varuint32_from_bin /\ bits = 32 /\ maxn = 5%nat) \/
  (f = varuint64_from_bin /\ bits = 64 /\ maxn = 10%nat) ->
  bytes_ok s ->
  (forall v r, f s = Ok (v, r) <->
     exists p, s = p ++ r /\ leb_shape p /\ (List.length p <= maxn)%nat /\ v = leb_value p mod 2 ^ bits) /\
  (f s = Err E_overrun <-> (List.length s < maxn)%nat /\ Forall (fun b => 128 <= b) s) /\
  (f s = Err E_invalid_varuint_encoding <->
     (maxn <= List.length s)%nat /\ Forall (fun b => 128 <= b) (firstn maxn s)) /\
  ((exists v r, f s = Ok (v, r)) \/ f s = Err E_overrun \/ f s = Err E_invalid_varuint_encoding).
Proof.
  intros Hf Hs.
  assert (E : f s = let* (l, r) := leb_read maxn s in Ok (leb_value l mod 2 ^ bits, r)).
  { destruct Hf as [(-> & -> & ->)|(-> & -> & ->)]; [now apply varuint32_from_bin_eq|now apply varuint64_from_bin_eq]. }
  assert (Hlr : forall e, f s = Err e <-> leb_read maxn s = Err e).
  { intros e. rewrite E. destruct (leb_read maxn s) as [[l r]| |]; cbn; split; intros H; inversion H; reflexivity. }
  split.
  { intros v r. rewrite E. split.
    - intros H. apply bind_Ok in H as [[l r'] [El H]]. inversion H; subst. exists l.
      apply leb_read_Ok in El as (-> & ? & ?); auto.
    - intros (p & -> & Hp & Hn & ->). rewrite leb_read_shape by assumption. reflexivity. }
  split; [|split].
  - rewrite Hlr. split.
    + intros H. apply leb_read_Err in H as [(_ & ? & ?)|(? & _)]; auto. discriminate.
    + intros [H1 H2]. now apply leb_read_overrun.
  - rewrite Hlr. split.
    + intros H. apply leb_read_Err in H as [(? & _)|(_ & ? & ?)]; auto. discriminate.
    + intros [H1 H2]. now apply leb_read_invalid.
  - destruct (leb_read maxn s) as [[l r]|e|w] eqn:EL.
    + left. rewrite E. cbn. eauto.
    + right. rewrite !Hlr. apply leb_read_Err in EL as [(-> & _)|(-> & _)]; auto.
    + exfalso. eapply leb_read_not_undef; eauto.
Qed.

Lemma two_pass env fuel t v :
  (forall bin, to_bin vector_stream env fuel t v [] = Ok bin ->
     to_bin size_stream env fuel t v 0%nat = Ok (List.length bin) /\
     to_bin fixed_buf_stream env fuel t v ([], List.length bin) = Ok (bin, 0%nat) /\
     (forall room, (room < List.length bin)%nat ->
        to_bin fixed_buf_stream env fuel t v ([], room) = Err E_overrun) /\
     forall old, convert_to_bin env fuel t v old = Ok (old ++ bin)) /\
  (forall e, to_bin vector_stream env fuel t v [] = Err e -> forall old, convert_to_bin env fuel t v old = Err e).
Proof.
  rewrite to_bin_vector. split.
  - intros bin H. apply bind_Ok in H as [b [E H]]. assert (EB : bin = b) by (cbn in H; congruence). subst bin. clear H.
    rewrite to_bin_size, E. split; [reflexivity|].
    split; [|split].
    + rewrite (to_bin_fixed env fuel t v b _ E). cbn. unfold check. rewrite Nat.leb_refl. cbn.
      now rewrite Nat.sub_diag.
    + intros room Hr. rewrite (to_bin_fixed env fuel t v b _ E). cbn. unfold check. cbn in Hr.
      destruct (Nat.leb_spec (List.length b) room); [lia|reflexivity].
    + intros old. rewrite convert_to_bin_eq, to_bin_vector, E. reflexivity.
  - intros e H old. rewrite convert_to_bin_eq, to_bin_vector.
    destruct (enc env fuel t v); cbn in *; congruence.
Qed.

Lemma native_decode_sound env fuel t s :
  (forall n, ty_ok (env n) = true) -> ty_ok t = true -> bytes_ok s -> Z.of_nat (List.length s) < 2 ^ 32 ->
  match from_bin env fuel t s with
  | Ok (v, rest) => (exists consumed, s = consumed ++ rest) /\ wf env fuel t v = true
  | Err e => In e decode_errors
  | Undef w => In w decode_hazards
  end.
Proof. intros He Ht Hs Hl. exact (sound_bin env fuel He t Ht s Hs Hl). Qed.

Lemma native_reencode env fuel t s v rest :
  (forall n, ty_ok (env n) = true) -> ty_ok t = true -> bytes_ok s -> Z.of_nat (List.length s) < 2 ^ 32 ->
  from_bin env fuel t s = Ok (v, rest) ->
  exists bin, convert_to_bin env fuel t v [] = Ok bin /\ from_bin env fuel t (bin ++ rest) = Ok (v, rest).
Proof.
  intros He Ht Hs Hl H. pose proof (native_decode_sound env fuel t s He Ht Hs Hl) as HS.
  rewrite H in HS. destruct HS as [[p ->] Hw].
  destruct (native_bin_roundtrip env fuel t v Hw) as (b & Eb & Hrd).
  exists b. split; [now rewrite convert_to_bin_eq|]. apply Hrd. now apply bytes_ok_app in Hs.
Qed.

Lemma convert_roundtrip env fuel t v : wf env fuel t v = true ->
  exists bin, convert_to_bin env fuel t v [] = Ok bin /\ convert_from_bin env fuel t bin = Ok v /\ bytes_ok bin.
Proof.
  intros H. destruct (rt_bin env fuel t v H) as (b & Eb & Hb & Hrd).
  exists b. rewrite convert_to_bin_eq, to_bin_vector, Eb. split; [reflexivity|]. split; auto.
  unfold convert_from_bin. specialize (Hrd [] bytes_ok_nil). rewrite app_nil_r in Hrd. now rewrite Hrd.
Qed.

Lemma wf_mono_with r1 r2 : (forall n v, r1 n v = true -> r2 n v = true) ->
  forall t v, wf_with r1 t v = true -> wf_with r2 t v = true.
Proof.
  intros Hr t. induction t as
    [sg n| |n| | | | |t IH|t IH|t IH|k t IHk IHt|n t IH|n t IH|t IH|ts IH|ts IH|t IH|k t IH|n] using ty_ind';
    intros v Hv; try (destruct v; exact Hv); cbn [wf_with] in *;
    assert (FB : forall l : list val, forall f g : val -> bool, (forall v, f v = true -> g v = true) -> forallb f l = true -> forallb g l = true)
      by (intros l f g Hfg Hf; rewrite forallb_forall in *; auto).
  - destruct v; try discriminate. apply andb_true_iff in Hv as [H1 H2]. rewrite H1. cbn. eapply FB; eauto.
  - destruct v; try discriminate. apply andb_true_iff in Hv as [H1 H2]. rewrite H1. cbn. eapply FB; eauto.
  - destruct v; try discriminate. apply andb_true_iff in Hv as [H0 H3]. apply andb_true_iff in H0 as [H1 H2].
    rewrite H1, H3, andb_true_r. cbn. eapply FB; eauto.
  - destruct v; try discriminate. apply andb_true_iff in Hv as [H0 H3]. apply andb_true_iff in H0 as [H1 H2].
    rewrite H1, H3, andb_true_r. cbn. eapply FB; [|exact H2].
    intros p Hp. destruct p as [| | | |[|x [|y [|]]]| |]; try discriminate. apply andb_true_iff in Hp as [? ?].
    rewrite IHk, IHt; auto.
  - destruct v; try discriminate. apply andb_true_iff in Hv as [H1 H2]. rewrite H1. cbn. eapply FB; eauto.
  - destruct v; try discriminate. apply andb_true_iff in Hv as [H1 H2]. rewrite H1. cbn. eapply FB; eauto.
  - destruct v as [| | | | |[x|]|]; try discriminate; auto.
  - destruct v as [| | | | | |i x]; try discriminate. apply andb_true_iff in Hv as [H1 H2]. rewrite H1. cbn.
    clear H1. revert i H2. induction IH as [|t ts Ht _ IHts]; intros i H2; cbn in *; [discriminate|].
    destruct (i =? 0); auto.
  - destruct v; try discriminate. revert l Hv. induction IH as [|t ts Ht _ IHts]; intros l Hv; destruct l; cbn in *; try discriminate; auto.
    apply andb_true_iff in Hv as [H1 H2]. rewrite (Ht _ H1). cbn. auto.
  - assert (E : forall b1 b2 b3 : bool, (b2 = true -> b3 = true) -> b1 && b2 = true -> b1 && b3 = true) by (intros [] []; cbn; auto).
    destruct v; (eapply E; [|exact Hv]); apply IH.
  - destruct v; apply IH; exact Hv.
  - destruct v; apply Hr; exact Hv.
Qed.
Lemma wf_mono env f1 f2 t v : (f1 <= f2)%nat -> wf env f1 t v = true -> wf env f2 t v = true.
Proof.
  revert f2 t v; induction f1 as [|f1 IH]; intros f2 t v Hle.
  - rewrite (wf_unfold env 0), (wf_unfold env f2). apply wf_mono_with. discriminate.
  - rewrite (wf_unfold env (S f1)), (wf_unfold env f2). apply wf_mono_with. intros n x Hx.
    destruct f2; [lia|]. apply IH; [lia|exact Hx].
Qed.
