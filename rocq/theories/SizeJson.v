(** * SizeJson: how many bytes a document can become (proofs only, for C61) *)
From Verif Require Import Base Stream StreamFacts TypedBin TypedSpec TypedBinFacts BinLemmas Hex Keys KeysFacts JsonInt Utf8 Json JsonSpec Abi AbiScalar AbiScalarFacts AbiValue AbiRead AbiBin AbiBinSound AbiJson AbiJsonFacts AbiJsonSound AbiJsonText AbiReadBack SizeScalar.

(** ** The least number of characters of a document *)
Local Open Scope nat_scope.
Fixpoint jsize (j : jv) : nat :=
  match j with
  | JNull | JBool _ => 4
  | JNum t => Nat.max 1 (len t)
  | JStr s => 2 + len s
  | JArr l => 1 + fold_right (fun x n => jsize x + 1 + n) (match l with [] => 1 | _ => 0 end) l
  | JObj l => 1 + fold_right (fun x n => 3 + len (fst x) + jsize (snd x) + 1 + n) (match l with [] => 1 | _ => 0 end) l
  end.
Local Close Scope nat_scope.
Definition isize (l : list jv) : nat := fold_right (fun x n => jsize x + 1 + n)%nat O l.
Definition msize (l : list (bytes * jv)) : nat := fold_right (fun x n => 3 + len (fst x) + jsize (snd x) + 1 + n)%nat O l.
Lemma isize_cons x l : isize (x :: l) = (jsize x + 1 + isize l)%nat. Proof. reflexivity. Qed.
Lemma msize_cons x l : msize (x :: l) = (3 + len (fst x) + jsize (snd x) + 1 + msize l)%nat. Proof. reflexivity. Qed.
Lemma jsize_arr l : (isize l <= jsize (JArr l) /\ 2 <= jsize (JArr l) /\ (l <> [] -> jsize (JArr l) = 1 + isize l))%nat.
Proof.
  destruct l as [|x l]; [cbn; repeat split; [lia|lia|congruence]|]. change (jsize (JArr (x :: l))) with (1 + isize (x :: l))%nat. cbn [isize fold_right]. repeat split; lia.
Qed.
Lemma jsize_obj l : (msize l <= jsize (JObj l) /\ 2 <= jsize (JObj l) /\ (l <> [] -> jsize (JObj l) = 1 + msize l))%nat.
Proof.
  destruct l as [|x l]; [cbn; repeat split; [lia|lia|congruence]|]. change (jsize (JObj (x :: l))) with (1 + msize (x :: l))%nat. cbn [msize fold_right]. repeat split; lia.
Qed.
Lemma jsize_pos j : (1 <= jsize j)%nat.
Proof. destruct j; cbn [jsize]; lia. Qed.
Lemma number_len t : number_fits t -> (1 <= len t)%nat.
Proof.
  intros (m & i & f & e & (-> & _ & Hi & _ & _) & _). rewrite !app_length. destruct Hi as [->|(c & d & -> & _)]; cbn [len]; lia.
Qed.
Lemma text_size lax : (forall j t, value_text lax j t -> (jsize j <= len t)%nat) /\ (forall l t, items_text lax l t -> (isize l <= len t + 1)%nat /\ l <> []) /\
  (forall l t, members_text lax l t -> (msize l <= len t + 1)%nat /\ l <> []).
Proof.
  apply json_text_mutind; intros; try (cbn; lia).
  - apply string_text_len in H. cbn [jsize len]. rewrite app_length. cbn [len]. lia.
  - apply number_len in H. cbn [jsize]. lia.
  - cbn [jsize len fold_right]. rewrite app_length. cbn [len]. lia.
  - destruct H0 as [H0 N]. rewrite (proj2 (proj2 (jsize_arr l)) N). cbn [len]. rewrite app_length. cbn [len]. lia.
  - cbn [jsize len fold_right]. rewrite app_length. cbn [len]. lia.
  - destruct H0 as [H0 N]. rewrite (proj2 (proj2 (jsize_obj l)) N). cbn [len]. rewrite app_length. cbn [len]. lia.
  - split; [|discriminate]. cbn [isize fold_right]. rewrite !app_length. lia.
  - split; [|discriminate]. cbn [isize fold_right]. fold (isize l). rewrite !app_length. cbn [len]. lia.
  - split; [|discriminate]. cbn [msize fold_right fst snd]. repeat (rewrite app_length; cbn [len]). apply string_text_len in H0. lia.
  - split; [|discriminate]. cbn [msize fold_right fst snd]. fold (msize l). repeat (rewrite app_length; cbn [len]). apply string_text_len in H0. lia.
Qed.
Lemma document_size j text : json_text_lax j (cstr text) -> (jsize j <= len text)%nat.
Proof.
  intros (w1 & b & w2 & _ & V & _ & E). apply (proj1 (text_size true)) in V. pose proof (cstr_len text) as L. rewrite E, !app_length in L. lia.
Qed.

(** ** Values read from documents *)
Definition bare (d : adata) : Prop := match d with AOptional _ | AExtension _ => False | _ => True end.
Definition fits (k : nat) (j : jv) (v : aval) : Prop := (len (enc v) <= 16 * jsize j + k)%nat.
Lemma text_fits E b j t v : text_of j = Some t -> scalar_from_text E b t = Ok v -> fits 0 j (AVBase b v).
Proof.
  intros T H. apply text_bytes in H. unfold fits. cbn [enc]. destruct j as [| |s|s| |]; try discriminate T; (cbn [text_of] in T; injection T as T; subst s; cbn [jsize]; lia).
Qed.
Lemma bool_fits b : fits 0 (JBool b) (AVBase B_bool (VBool b)).
Proof.
  unfold fits. cbn [enc jsize]. destruct (scalar_bytes_cases B_bool (VBool b)) as [->|(x & Ex & ->)]; [cbn; lia|].
  cbn [scalar_ty] in Ex. rewrite enc_unfold in Ex. cbn [enc_with] in Ex. assert (x = [if b then 1 else 0]) by (destruct b; congruence). subst x. cbn. lia.
Qed.
Lemma concat_fits js l : Forall2 (fits 1) js l -> (len (concat (map enc l)) + 15 * len l <= 16 * isize js)%nat.
Proof.
  intros H. induction H as [|j v js l H _ IH]; [cbn; lia|].
  cbn [map concat isize fold_right]. fold (isize js). rewrite app_length. unfold fits in H. cbn [len]. lia.
Qed.
Lemma list_fits js l : Forall2 (fits 1) js l -> fits 0 (JArr js) (AVList l).
Proof.
  intros H. pose proof (concat_fits _ _ H) as C. pose proof (encv_len (Z.of_nat (len l))) as L. unfold fits. cbn [enc]. rewrite app_length.
  destruct (jsize_arr js) as (J1 & J2 & J3). revert C L. generalize (len (encv (Z.of_nat (len l)))) (len (concat (map enc l))). intros a b C L. destruct H as [|j v js l H Hs]; [cbn [isize fold_right] in C; lia|]. rewrite J3 by discriminate. cbn [len] in C. lia.
Qed.
Lemma var_fits x i j v : fits 1 j v -> fits 0 (JArr [x; j]) (AVVar i v).
Proof. intros H. unfold fits in *. cbn [enc jsize fold_right]. rewrite app_length. pose proof (encv_len i). lia. Qed.
(** The members which are taken are together not longer than the object. *)
Lemma struct_fits ms sel l : (isize sel <= msize ms)%nat -> Forall2 (fits 1) sel l -> fits 0 (JObj ms) (AVStruct l).
Proof.
  intros S H. pose proof (concat_fits _ _ H) as C. unfold fits. cbn [enc]. pose proof (proj1 (jsize_obj ms)). lia.
Qed.
Lemma members_size l : (isize (map snd l) <= msize l)%nat.
Proof. induction l as [|x l IH]; [cbn; lia|]. cbn [map]. rewrite isize_cons, msize_cons. lia. Qed.
Definition without (n : bytes) (l : list (bytes * jv)) := filter (fun x => negb (beq (fst x) n)) l.
Lemma last_without n n' l : n' <> n -> last_value n' (without n l) = last_value n' l.
Proof.
  intros N. induction l as [|[k j] l IH]; [reflexivity|]. cbn [without filter fst]. destruct (beq k n) eqn:Q; cbn [negb].
  - cbn [last_value]. fold (without n l). rewrite IH. destruct (last_value n' l); [reflexivity|]. apply beq_eq in Q. subst k. destruct (beq n n') eqn:Q'; [apply beq_eq in Q'; congruence|reflexivity].
  - cbn [last_value]. fold (without n l). now rewrite IH.
Qed.
Lemma without_size n l : (msize (without n l) <= msize l)%nat.
Proof.
  induction l as [|[k j] l IH]; [cbn; lia|]. cbn [without filter fst]. fold (without n l). destruct (beq k n); cbn [negb]; rewrite ?msize_cons; cbn [fst snd]; lia.
Qed.
Lemma last_size n l j : last_value n l = Some j -> (jsize j + 1 + msize (without n l) <= msize l)%nat.
Proof.
  revert j. induction l as [|[k y] l IH]; intros j H; [discriminate|]. cbn [last_value] in H. cbn [without filter fst]. fold (without n l). rewrite (msize_cons (k, y) l). cbn [fst snd].
  pose proof (without_size n l) as W. destruct (last_value n l) as [z|].
  - assert (z = j) by congruence. subst z. specialize (IH j eq_refl). destruct (beq k n); cbn [negb]; rewrite ?msize_cons; cbn [fst snd]; lia.
  - destruct (beq k n); [|discriminate]. assert (y = j) by congruence. subst y. cbn [negb]. lia.
Qed.
Lemma NoDup_head {A} (a b : list A) : NoDup (a ++ b) -> NoDup a.
Proof. induction a as [|x a IH]; intros H; [constructor|]. inversion H; subst. constructor; [|auto]. intros X. apply H2. apply in_or_app. now left. Qed.
Lemma by_name_size names l sel : NoDup names -> by_name names l sel -> (isize sel <= msize l)%nat.
Proof.
  intros N (given & absent & -> & F & _). apply NoDup_head in N. revert l F. revert sel.
  induction given as [|n given IH]; intros sel l F; inversion F as [|? j ? sel' Hj F' E1 E2]; subst; [cbn; lia|]. inversion N as [|? ? Nn N']; subst.
  rewrite isize_cons. pose proof (last_size _ _ _ Hj). enough (isize sel' <= msize (without n l))%nat by lia. apply IH; [exact N'|].
  clear - F' Nn. induction F' as [|n' j' g s H F IH]; constructor; [|apply IH; intros X; apply Nn; now right]. rewrite last_without; [exact H|]. intros ->. apply Nn. now left.
Qed.

Section Ordered.
  Variables (E : float_lib) (m : amap).
  Hypothesis SM : sound_map m.
  Definition rec_fits (rec : jrec) : Prop := forall ext p j v, rec ext p j = Ok v -> fits 1 j v.
  Lemma fits_up j v : fits 0 j v -> fits 1 j v. Proof. unfold fits. lia. Qed.
  Lemma jfields_fits rec ext : rec_fits rec -> forall l fs vs, jfields m rec ext fs l = Ok vs -> Forall2 (fits 1) (map snd l) vs.
  Proof.
    intros R. induction l as [|[key j] l IH]; intros fs vs H; cbn [jfields] in H.
    - destruct fs as [|[n q] fs]; [assert (vs = []) by congruence; subst; constructor|].
      apply bind_Ok in H as (? & _ & H). apply bind_Ok in H as (? & _ & H). assert (vs = []) by congruence; subst; constructor.
    - destruct fs as [|[n q] fs]; [discriminate|]. apply bind_Ok in H as (? & _ & H). apply bind_Ok in H as (v & Hv & H). apply bind_Ok in H as (w & Hw & H).
      assert (vs = v :: w) by congruence. subst vs. cbn [map snd]. constructor; [exact (R _ _ _ _ Hv)|exact (IH _ _ Hw)].
  Qed.
  Lemma jitems_fits rec q : rec_fits rec -> forall l pos vs, jitems rec q l pos = Ok vs -> Forall2 (fits 1) l vs.
  Proof.
    intros R. induction l as [|j l IH]; intros pos vs H; cbn [jitems] in H; [assert (vs = []) by congruence; subst; constructor|].
    apply bind_Ok in H as (? & _ & H). apply bind_Ok in H as (v & Hv & H). apply bind_Ok in H as (w & Hw & H).
    assert (vs = v :: w) by congruence. subst vs. constructor; [exact (R _ _ _ _ Hv)|exact (IH _ _ Hw)].
  Qed.
  Lemma jvariant_fits rec ext fs l v : rec_fits rec -> jvariant rec ext fs l = Ok v -> fits 0 (JArr l) v.
  Proof.
    intros R H. destruct l as [|x l]; [discriminate|]. cbn [jvariant] in H. destruct (text_of x) as [name|]; [|discriminate]. destruct (find_name name fs 0) as [[i q]|]; [|discriminate].
    apply bind_Ok in H as (u & _ & H). destruct l as [|y l]; [discriminate|]. apply bind_Ok in H as (w & Hw & H). destruct l; [|discriminate].
    assert (v = AVVar i w) by congruence. subst v. apply var_fits. exact (R _ _ _ _ Hw).
  Qed.
  Definition cont_fits (cont : bool -> adata -> jv -> res aval) : Prop := forall ext d j v, cont ext d j = Ok v -> fits 0 j v.
  Lemma jcont_fits rec : rec_fits rec -> cont_fits (jcont m rec).
  Proof.
    intros R ext d j v H. destruct d; try discriminate H; cbn [jcont] in H; destruct j as [| | | |l|l]; try discriminate H.
    - apply bind_Ok in H as (vs & Hv & H). assert (v = AVList vs) by congruence. subst v. apply list_fits. exact (jitems_fits _ _ R _ _ _ Hv).
    - apply bind_Ok in H as (vs & Hv & H). assert (v = AVStruct vs) by congruence. subst v. eapply struct_fits; [apply members_size|]. exact (jfields_fits _ _ R _ _ _ Hv).
    - exact (jvariant_fits _ _ _ _ _ R H).
  Qed.
  Lemma jfull_fits : cont_fits (jfull m).
  Proof.
    intros ext d j v H. destruct d; try discriminate H; cbn [jfull] in H; destruct j as [| | | |l|l]; try discriminate H.
    apply bind_Ok in H as (vs & Hv & H). assert (v = AVStruct vs) by congruence. subst v. eapply struct_fits; [apply members_size|]. refine (jfields_fits _ _ _ _ _ _ Hv). intros ? ? ? ? X. discriminate X.
  Qed.
  Lemma jchain_fits cont : cont_fits cont -> forall c ext p j v, jchain E m cont c ext p j = Ok v -> fits 1 j v /\ (forall d, afind p m = Some d -> is_optional_array_extension d = false -> fits 0 j v).
  Proof.
    intros C. induction c as [|c IH]; intros ext p j v H; [discriminate|]. cbn [jchain] in H. apply bind_Ok in H as (d & Hd & H).
    assert (Hp : afind p m = Some d) by (unfold deref in Hd; destruct (afind p m); [congruence|discriminate]).
    assert (Up : fits 0 j v -> fits 1 j v /\ (forall d, afind p m = Some d -> is_optional_array_extension d = false -> fits 0 j v)) by (intros X; split; [apply fits_up; exact X|intros; exact X]).
    destruct d; try (apply Up; exact (C _ _ _ _ H)).
    - apply Up. destruct b; [destruct j; try discriminate H; assert (v = AVBase B_bool (VBool b)) by congruence; subst v; apply bool_fits|..];
        (destruct (text_of j) as [t|] eqn:T; [|discriminate H]; apply bind_Ok in H as (x & Hx & H); match type of H with Ok ?y = _ => assert (v = y) by congruence end; subst v; eapply text_fits; eauto).
    - split; [|intros d Hd' Q; assert (d = AOptional p0) by congruence; subst d; discriminate Q].
      assert (K : j = JNull /\ v = AVNone \/ exists w, jchain E m cont c ext p0 j = Ok w /\ v = AVSome w).
      { destruct j; try (apply bind_Ok in H as (w & Hw & H); right; exists w; split; [exact Hw|congruence]). left. split; congruence. }
      destruct K as [[-> ->]|(w & Hw & ->)]; [unfold fits; cbn; lia|]. apply IH in Hw as [_ Hw].
      destruct (sm_ptr m SM p _ p0 Hp ltac:(left; reflexivity)) as (e & He & _). specialize (Hw e He (sm_opt m SM p p0 e Hp He)). unfold fits in *. cbn [enc len]. lia.
    - split; [|intros d Hd' Q; assert (d = AExtension p0) by congruence; subst d; discriminate Q]. exact (proj1 (IH _ _ _ _ H)).
  Qed.
  Lemma jread_fits : forall k, rec_fits (jread E m k).
  Proof.
    induction k as [|k IH]; intros ext p j v H; rewrite jread_eq in H; refine (proj1 (jchain_fits _ _ _ _ _ _ _ H)); cbn [jctx]; [apply jfull_fits|apply jcont_fits, IH].
  Qed.
End Ordered.

Lemma reads_fits E m : sound_map m -> distinct_names m ->
  (forall ext p j v, reads E m by_name ext p j v -> fits 1 j v /\ (forall d, afind p m = Some d -> is_optional_array_extension d = false -> fits 0 j v)) /\
  (forall q js l, reads_items E m by_name q js l -> Forall2 (fits 1) js l) /\ (forall ext fs js l, reads_fields E m by_name ext fs js l -> Forall2 (fits 1) js l).
Proof.
  intros SM DN.
  assert (Up : forall p j v, fits 0 j v -> fits 1 j v /\ (forall d, afind p m = Some d -> is_optional_array_extension d = false -> fits 0 j v)) by (intros p j v X; split; [apply fits_up; exact X|intros; exact X]).
  apply reads_mutind; intros.
  - apply Up, bool_fits.
  - apply Up. eapply text_fits; eauto.
  - split; [unfold fits; cbn; lia|]. intros d Hd Q. assert (d = AOptional q) by congruence. subst d. discriminate Q.
  - split; [|intros d Hd Q; assert (d = AOptional q) by congruence; subst d; discriminate Q].
    destruct (sm_ptr m SM p _ q H ltac:(left; reflexivity)) as (e & He & _). pose proof (proj2 H2 e He (sm_opt m SM p q e H He)) as X. unfold fits in *. cbn [enc len]. lia.
  - split; [|intros d Hd Q; assert (d = AExtension q) by congruence; subst d; discriminate Q]. exact (proj1 H1).
  - apply Up, list_fits. assumption.
  - apply Up. eapply struct_fits; [|eassumption]. eapply by_name_size; [|eassumption]. eapply DN. left. eassumption.
  - apply Up, var_fits. apply H4 || apply H5.
  - constructor.
  - constructor; [apply H0|assumption].
  - constructor.
  - constructor.
  - constructor; [apply H0|assumption].
Qed.
