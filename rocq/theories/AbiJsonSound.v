(** * The ordered converter accepts exactly the documents of AbiRead.v (proofs only) *)
From Verif Require Import Base Stream StreamFacts TypedBin TypedSpec Json JsonSpec JsonPrint Keys KeysFacts Abi AbiScalar AbiScalarFacts AbiValue AbiRead Machine AbiBin AbiBinFacts AbiBinSound AbiJson AbiJsonFacts.

(** Arrays a counter of type int can number. *)
Inductive arrays_ok : jv -> Prop :=
| ao_null : arrays_ok JNull
| ao_bool b : arrays_ok (JBool b)
| ao_str s : arrays_ok (JStr s)
| ao_num s : arrays_ok (JNum s)
| ao_arr l : Z.of_nat (List.length l) <= 2 ^ 31 -> Forall arrays_ok l -> arrays_ok (JArr l)
| ao_obj l : Forall (fun x => arrays_ok (snd x)) l -> arrays_ok (JObj l).

Lemma level_arr k l : (level (JArr l) <= S k)%nat <-> Forall (fun j => (level j <= k)%nat) l.
Proof.
  cbn [level]. induction l as [|j l IH]; cbn [fold_right]; [split; [constructor|lia]|].
  rewrite Forall_cons_iff, <- IH. lia.
Qed.
Lemma level_obj k x l : (level (JObj (x :: l)) <= S k)%nat <-> Forall (fun j => (level (snd j) <= k)%nat) (x :: l).
Proof.
  cbn [level]. assert (H : forall l, (S (fold_right (fun x n => Nat.max (level (snd x)) n) O l) <= S k)%nat <-> Forall (fun j : bytes * jv => (level (snd j) <= k)%nat) l).
  { clear. induction l as [|j l IH]; cbn [fold_right]; [split; [constructor|lia]|]. rewrite Forall_cons_iff, <- IH. lia. }
  apply H.
Qed.

Section Facts.
  Variables (E : float_lib) (m : amap).
  Hypothesis SM : sound_map m.
  Notation jr := (jread E m).

  Lemma jchain_S cont c ext p j : jchain E m cont (S c) ext p j =
      (let* d := deref p m in match d with
      | ABuiltin B_bool => match j with JBool b => Ok (AVBase B_bool (VBool b)) | _ => Err E_expected_bool end
      | ABuiltin b => match text_of j with
                      | Some t => let* v := scalar_from_text E b t in Ok (AVBase b v)
                      | None => Err E_expected_string
                      end
      | AOptional q => match j with JNull => Ok AVNone | _ => let* v := jchain E m cont c ext q j in Ok (AVSome v) end
      | AExtension q => jchain E m cont c ext q j
      | _ => cont ext d j
      end).
  Proof. reflexivity. Qed.
  Lemma jchain_enough cont : forall c ext p j, chain_ok m c p -> jchain E m cont (S c) ext p j = jchain E m cont c ext p j.
  Proof.
    induction c as [|c IH]; intros ext p j H; [destruct H|]. cbn [chain_ok] in H. rewrite (jchain_S cont (S c)), (jchain_S cont c).
    unfold deref. destruct (afind p m) as [d|]; [|reflexivity]. cbn [bind]. destruct d; try reflexivity.
    - rewrite (IH ext p0 j H). reflexivity.
    - rewrite (IH ext p0 j H). reflexivity.
  Qed.
  Lemma chain3 p : chain_ok m 3 p. Proof. now apply sound_chain. Qed.
  Lemma jr_3 k ext p j : jr k ext p j = jchain E m (jctx E m k) 3 ext p j.
  Proof. rewrite jread_eq. apply jchain_enough, chain3. Qed.
  Lemma jr_base k ext p j b : afind p m = Some (ABuiltin b) -> b <> B_bool ->
    jr k ext p j = match text_of j with
                      | Some t => let* v := scalar_from_text E b t in Ok (AVBase b v)
                      | None => Err E_expected_string
                      end.
  Proof. intros Hp Hb. rewrite jr_3. cbn [jchain]. unfold deref. rewrite Hp. cbn [bind]. destruct b; try reflexivity. congruence. Qed.
  Lemma jr_bool k ext p j : afind p m = Some (ABuiltin B_bool) ->
    jr k ext p j = match j with JBool b => Ok (AVBase B_bool (VBool b)) | _ => Err E_expected_bool end.
  Proof. intros Hp. rewrite jr_3. cbn [jchain]. unfold deref. rewrite Hp. reflexivity. Qed.
  Lemma jr_chain k c ext p j : chain_ok m c p -> (c <= 3)%nat -> jchain E m (jctx E m k) c ext p j = jr k ext p j.
  Proof.
    intros H Hc. rewrite jr_3.
    assert (G : forall n, (n + c <= 3)%nat -> jchain E m (jctx E m k) (n + c) ext p j = jchain E m (jctx E m k) c ext p j).
    { induction n as [|n IH]; intros Hn; [reflexivity|]. cbn [plus]. rewrite jchain_enough; [apply IH; lia|].
      clear -H. induction n; [exact H|]. now apply chain_ok_S. }
    symmetry. replace 3%nat with (3 - c + c)%nat at 1 by lia. apply G. lia.
  Qed.
  Lemma opt_chain p q : afind p m = Some (AOptional q) -> chain_ok m 2 q.
  Proof. intros Hp. pose proof (chain3 p) as H. cbn [chain_ok] in H. now rewrite Hp in H. Qed.
  Lemma ext_chain p q : afind p m = Some (AExtension q) -> chain_ok m 2 q.
  Proof. intros Hp. pose proof (chain3 p) as H. cbn [chain_ok] in H. now rewrite Hp in H. Qed.
  Lemma jr_null k ext p q : afind p m = Some (AOptional q) -> jr k ext p JNull = Ok AVNone.
  Proof. intros Hp. rewrite jr_3. cbn [jchain]. unfold deref. rewrite Hp. reflexivity. Qed.
  Lemma jr_some k ext p q j : afind p m = Some (AOptional q) -> j <> JNull -> jr k ext p j = let* v := jr k ext q j in Ok (AVSome v).
  Proof.
    intros Hp Hj. rewrite <- (jr_chain k 2 ext q j (opt_chain p q Hp)) by lia. rewrite jr_3.
    rewrite (jchain_S _ 2).
    unfold deref. rewrite Hp. cbn [bind]. destruct j; try reflexivity. congruence.
  Qed.
  Lemma jr_ext k ext p q j : afind p m = Some (AExtension q) -> jr k ext p j = jr k ext q j.
  Proof.
    intros Hp. rewrite <- (jr_chain k 2 ext q j (ext_chain p q Hp)) by lia. rewrite jr_3.
    rewrite (jchain_S _ 2).
    unfold deref. rewrite Hp. reflexivity.
  Qed.
  Lemma jr_cont k ext p j d : afind p m = Some d -> container d = true -> jr k ext p j = jctx E m k ext d j.
  Proof. intros Hp Hd. rewrite jr_3. cbn [jchain]. unfold deref. rewrite Hp. cbn [bind]. destruct d; try discriminate; reflexivity. Qed.

  (** ** Completeness *)
  Lemma find_name_complete name q : forall fs i base, nthz fs i = Some (name, q) -> 0 <= i ->
    (forall i', 0 <= i' < i -> exists name' q', nthz fs i' = Some (name', q') /\ name' <> name) ->
    find_name name fs base = Some (base + i, q).
  Proof.
    induction fs as [|[n q0] fs IH]; intros i base H Hi Hf; [discriminate|]. cbn [find_name nthz] in *.
    destruct (Z.eqb_spec i 0) as [->|Hi0].
    - assert (n = name /\ q0 = q) as [-> ->] by (split; congruence). rewrite beq_refl. now rewrite Z.add_0_r.
    - destruct (Hf 0 ltac:(lia)) as (n' & q' & N & D). cbn [nthz] in N. change (0 =? 0) with true in N. cbv iota in N.
      assert (n = n') by congruence. subst n'. rewrite (proj2 (beq_neq n name) D). rewrite (IH (i - 1) (base + 1) H).
      + f_equal. f_equal. lia.
      + lia.
      + intros i' Hi'. destruct (Hf (i' + 1) ltac:(lia)) as (a & b & N' & D'). exists a, b. split; [|exact D'].
        cbn [nthz] in N'. destruct (Z.eqb_spec (i' + 1) 0); [lia|]. now replace (i' + 1 - 1) with i' in N' by lia.
  Qed.
  Lemma in_order_len names ms sel : in_order names ms sel -> (List.length ms <= List.length names)%nat.
  Proof. intros [H _]. apply (f_equal (@List.length _)) in H. rewrite map_length, firstn_length in H. lia. Qed.

  Lemma jread_complete : (forall ext p j v, reads E m in_order ext p j v -> forall k, arrays_ok j -> (level j <= k)%nat -> jr k ext p j = Ok v) /\
    (forall q js l, reads_items E m in_order q js l -> forall k pos, Forall arrays_ok js -> Forall (fun j => (level j <= k)%nat) js ->
       0 <= pos -> pos + Z.of_nat (List.length js) <= 2 ^ 31 -> jitems (jr k) q js pos = Ok l) /\
    (forall ext fs sel l, reads_fields E m in_order ext fs sel l -> forall k, Forall arrays_ok sel -> Forall (fun j => (level j <= k)%nat) sel ->
       forall ms, in_order (map fst fs) ms sel -> jfields m (jr k) ext fs ms = Ok l).
  Proof.
    apply reads_mutind.
    - intros ext p x Hp k A L. now rewrite jr_bool.
    - intros ext p b j t v Hp Hb Ht Hv k A L. rewrite (jr_base k ext p j b Hp Hb), Ht, Hv. reflexivity.
    - intros ext p q Hp k A L. eapply jr_null; eauto.
    - intros ext p q j v Hp Hj _ IH k A L. rewrite (jr_some k ext p q j Hp Hj), IH by assumption. reflexivity.
    - intros ext p q j v Hp _ IH k A L. rewrite (jr_ext k ext p q j Hp). auto.
    - intros ext p q js l Hp _ IH k A L. destruct k as [|k]; [cbn in L; lia|]. rewrite (jr_cont _ ext p _ _ Hp eq_refl). cbn [jctx jcont].
      inversion A; subst. apply level_arr in L. rewrite IH; auto; lia.
    - intros ext p fs ms sel l Hp HP _ IH k A L. rewrite (jr_cont _ ext p _ _ Hp eq_refl). inversion A; subst.
      destruct ms as [|x ms].
      + destruct HP as [_ HP]. cbn in HP. subst sel. specialize (IH O ltac:(constructor) ltac:(constructor) [] (conj eq_refl eq_refl)).
        assert (X : forall rec, jfields m rec ext fs [] = jfields m (jr 0) ext fs []) by reflexivity.
        destruct k as [|k]; cbn [jctx jcont jfull]; rewrite X, IH; reflexivity.
      + destruct k as [|k]; [cbn in L; lia|]. cbn [jctx jcont]. apply level_obj in L. rewrite (IH k); [reflexivity| | |exact HP].
        * destruct HP as [_ <-]. rewrite Forall_map. exact H0.
        * destruct HP as [_ <-]. rewrite Forall_map. exact L.
    - intros ext p fs i q x name j v Hp Hx Hn Hi Hf _ IH k A L. destruct k as [|k]; [cbn in L; lia|].
      rewrite (jr_cont _ ext p _ _ Hp eq_refl). cbn [jctx jcont jvariant]. rewrite Hx, (find_name_complete name q fs i 0 Hn ltac:(lia) Hf).
      rewrite Z.add_0_l. destruct (Z.ltb_spec i (2 ^ 32)); [|lia]. cbn [check bind]. apply level_arr in L. inversion A; subst.
      repeat match goal with H : Forall _ (_ :: _) |- _ => apply Forall_cons_iff in H as [? ?] end. rewrite IH by assumption. reflexivity.
    - reflexivity.
    - intros q j js v l _ IH1 _ IH2 k pos A L Hp Hl. apply Forall_cons_iff in A as [A1 A2]. apply Forall_cons_iff in L as [L1 L2]. cbn [List.length] in Hl.
      cbn [jitems]. destruct (Z.ltb_spec pos (2 ^ 31)); [|lia]. cbn [bind]. rewrite IH1 by assumption. cbn [bind]. rewrite IH2 by (assumption || lia). reflexivity.
    - intros ext k _ _ ms HP. pose proof (in_order_len _ _ _ HP) as X. destruct ms; [reflexivity|cbn in X; lia].
    - intros f fs F k _ _ ms [_ HP]. destruct ms; [|discriminate]. destruct f as [n q]. cbn [jfields]. apply Forall_cons_iff in F as [F _]. rewrite (is_ext_true m q F). reflexivity.
    - intros ext name q fs j js v l _ IH1 _ IH2 k A L ms [O1 O2]. apply Forall_cons_iff in A as [A1 A2]. apply Forall_cons_iff in L as [L1 L2].
      destruct ms as [|[key j'] ms]; [discriminate|]. cbn [map List.length firstn fst snd] in *. assert (j' = j /\ key = name) as [-> ->] by (split; congruence).
      cbn [jfields]. rewrite beq_refl. cbn [check bind]. rewrite IH1 by assumption. cbn [bind]. rewrite (IH2 k A2 L2 ms); [reflexivity|]. split; congruence.
  Qed.

  (** ** Soundness *)
  Hypothesis TR : trailing_extensions m.
  Definition good k ext p j v := reads E m in_order ext p j v /\ (level j <= k)%nat.
  Lemma jfields_sound rec k ext : (forall ext q j v, rec ext q j = Ok v -> good k ext q j v) ->
    forall fs ms l, trail m fs -> jfields m rec ext fs ms = Ok l ->
    in_order (map fst fs) ms (map snd ms) /\ reads_fields E m in_order ext fs (map snd ms) l /\ Forall (fun x => (level (snd x) <= k)%nat) ms.
  Proof.
    intros HR. induction fs as [|[name q] fs IH]; intros ms l T H.
    - destruct ms as [|[key j] ms]; [|discriminate]. cbn in H. assert (l = []) by congruence. subst. split; [split; reflexivity|]. split; constructor.
    - destruct ms as [|[key j] ms]; cbn [jfields] in H.
      + apply bind_Ok in H as (x & Hx & H). apply bind_Ok in H as (y & C & H). unfold check in C. destruct x, ext; try discriminate. assert (l = []) by congruence. subst l.
        apply (is_ext_type_spec m q true) in Hx. pose proof (proj1 Hx eq_refl) as X.
        split; [split; reflexivity|]. split; [|constructor]. apply rfields_omit. constructor; [exact X|]. apply (T (name, q) [] fs); auto.
      + apply bind_Ok in H as (y & C & H). apply bind_Ok in H as (v & Hv & H). apply bind_Ok in H as (vs & Hvs & H). assert (l = v :: vs) by congruence. subst l.
        unfold check in C. destruct (beq key name) eqn:B; [|discriminate]. apply beq_eq in B. subst key.
        apply IH in Hvs as ([O1 O2] & R & L); [|eapply trail_tail; eauto]. apply HR in Hv as [R1 L1].
        split; [split; [cbn [map List.length firstn fst]; congruence|reflexivity]|]. split; [cbn [map snd]; constructor; assumption|]. constructor; assumption.
  Qed.
  Lemma jitems_sound rec k q : (forall ext q j v, rec ext q j = Ok v -> good k ext q j v) ->
    forall js pos l, jitems rec q js pos = Ok l -> reads_items E m in_order q js l /\ Forall (fun x => (level x <= k)%nat) js.
  Proof.
    intros HR. induction js as [|j js IH]; intros pos l H; cbn [jitems] in H.
    - assert (l = []) by congruence. subst. split; constructor.
    - apply bind_Ok in H as (y & _ & H). apply bind_Ok in H as (v & Hv & H). apply bind_Ok in H as (vs & Hvs & H). assert (l = v :: vs) by congruence. subst l.
      apply HR in Hv as [R1 L1]. apply IH in Hvs as [R2 L2]. split; constructor; assumption.
  Qed.
  Lemma find_name_first name fs : forall base i q, find_name name fs base = Some (i, q) ->
    forall i', 0 <= i' < i - base -> exists name' q', nthz fs i' = Some (name', q') /\ name' <> name.
  Proof.
    induction fs as [|[n q0] fs IH]; intros base i q H i' Hi'; [discriminate|]. cbn [find_name] in H. destruct (beq n name) eqn:B.
    - assert (base = i) by congruence. lia.
    - cbn [nthz]. destruct (Z.eqb_spec i' 0); [exists n, q0; split; [reflexivity|now apply beq_neq]|]. apply (IH (base + 1) i q H). lia.
  Qed.
  Lemma cont_sound k : (forall ext p j v d, afind p m = Some d -> container d = true -> jr k ext p j = Ok v -> good k ext p j v) ->
    forall ext p j v, jr k ext p j = Ok v -> good k ext p j v.
  Proof.
    intros HC.
    assert (G : forall c ext p j v, chain_ok m c p -> jr k ext p j = Ok v -> good k ext p j v).
    { induction c as [|c IH]; intros ext p j v C H; [destruct C|]. cbn [chain_ok] in C.
      destruct (afind p m) as [d|] eqn:Hp; [|rewrite jr_3 in H; cbn [jchain] in H; unfold deref in H; rewrite Hp in H; discriminate].
      destruct (container d) eqn:Cd; [eapply HC; eauto|]. destruct d; try discriminate;
        try (rewrite jr_3 in H; cbn [jchain] in H; unfold deref in H; rewrite Hp in H; cbn [bind] in H; destruct k; discriminate).
      - assert (D : b = B_bool \/ b <> B_bool) by (destruct b; auto; right; discriminate). destruct D as [->|D].
        + rewrite (jr_bool k ext p j Hp) in H. destruct j; try discriminate. assert (v = AVBase B_bool (VBool b)) by congruence. subst.
          split; [now constructor|cbn; lia].
        + rewrite (jr_base k ext p j b Hp D) in H. destruct (text_of j) as [t|] eqn:T; [|discriminate]. apply bind_Ok in H as (x & Hx & H).
          assert (v = AVBase b x) by congruence. subst. split; [eapply reads_text; eauto|]. destruct j; try discriminate; cbn; lia.
      - assert (JN : j = JNull \/ j <> JNull) by (destruct j; auto; right; discriminate). destruct JN as [->|JN].
        + rewrite (jr_null k ext p _ Hp) in H. assert (v = AVNone) by congruence. subst. split; [eapply reads_none; eauto|cbn; lia].
        + rewrite (jr_some k ext p _ j Hp JN) in H. apply bind_Ok in H as (x & Hx & H). assert (v = AVSome x) by congruence. subst.
          apply IH in Hx as [R L]; [|exact C]. split; [eapply reads_some; eauto|exact L].
      - rewrite (jr_ext k ext p _ j Hp) in H. apply IH in H as [R L]; [|exact C]. split; [eapply reads_ext; eauto|exact L]. }
    intros ext p j v. apply (G 3%nat), chain3.
  Qed.
  Lemma jread_sound : forall k ext p j v, jr k ext p j = Ok v -> good k ext p j v.
  Proof.
    induction k as [|k IH]; apply cont_sound; intros ext p j v d Hp Hd H; rewrite (jr_cont _ ext p j d Hp Hd) in H; destruct d; try discriminate; cbn [jctx jfull jcont] in H;
      destruct j as [| | | |js|ms]; try discriminate.
    - apply bind_Ok in H as (l & Hl & H). assert (v = AVStruct l) by congruence. subst.
      destruct ms as [|x ms]; [|exfalso; destruct x as [key j]; destruct fields as [|[n q] fields]; [discriminate|]; cbn [jfields] in Hl; apply bind_Ok in Hl as (y & _ & Hl); discriminate Hl].
      split; [|cbn; lia]. eapply (jfields_sound jlimit O) in Hl as (O1 & R & _); [|intros ? ? ? ? X; discriminate X|eapply struct_trail; eauto]. eapply reads_struct; eauto.
    - apply bind_Ok in H as (l & Hl & H). assert (v = AVList l) by congruence. subst. apply (jitems_sound _ k) in Hl as [R L]; [|exact IH].
      split; [eapply reads_list; eauto|]. apply level_arr. exact L.
    - apply bind_Ok in H as (l & Hl & H). assert (v = AVStruct l) by congruence. subst. apply (jfields_sound _ k) in Hl as (O1 & R & L); [|exact IH|eapply struct_trail; eauto].
      split; [eapply reads_struct; eauto|]. destruct ms; [cbn; lia|]. apply level_obj. exact L.
    - destruct js as [|x js]; [discriminate|]. cbn [jvariant] in H. destruct (text_of x) as [name|] eqn:T; [|discriminate]. destruct (find_name name fields 0) as [[i q]|] eqn:F; [|discriminate].
      apply bind_Ok in H as (u & C & H). destruct js as [|y js]; [discriminate|]. apply bind_Ok in H as (w & Hw & H). destruct js; [|discriminate].
      assert (v = AVVar i w) by congruence. subst. apply IH in Hw as [R L]. unfold check in C. destruct (Z.ltb_spec i (2 ^ 32)); [|discriminate].
      pose proof (find_name_nth _ _ _ _ _ F) as N. rewrite Z.sub_0_r in N. pose proof (find_name_range _ _ _ _ _ F). split.
      + eapply reads_var; eauto. intros i' Hi'. eapply (find_name_first name fields 0 i q F). lia.
      + apply level_arr. constructor; [destruct x; try discriminate; cbn; lia|]. constructor; [exact L|constructor].
  Qed.
End Facts.
