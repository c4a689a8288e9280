(** * AbiStable: conversions depend only on the definition, not on the history of lookups (proofs) *)
From Verif Require Import Base Stream TypedBin Json JsonSpec Keys Abi AbiSpec AbiFacts AbiLoad AbiScalar Machine AbiBin AbiBinSound AbiJson AbiJsonFacts.

Lemma exec_same {St R} (I : St -> Prop) (f g : St -> res (St + R)) :
  (forall s, I s -> f s = g s /\ forall s', f s = Ok (inl s') -> I s') -> forall s r, I s -> exec f s r -> exec g s r.
Proof.
  intros H s r Hs X. induction X as [s r E|s s' r E X IH|s e E|s w E]; destruct (H s Hs) as [Q K].
  - apply exec_done. congruence.
  - eapply exec_step; [rewrite <- Q; exact E|]. apply IH. now apply K.
  - apply exec_err. congruence.
  - apply exec_undef. congruence.
Qed.

(** Two tables faithful to the same definition agree where both are defined. *)
Lemma described_fun a n d d' : functional a -> described a n d -> described a n d' -> d = d'.
Proof.
  intros F H H'.
  assert (DS : forall k fs, struct_fields a k n fs -> exists b f, declares a n (DStruct b f)) by (intros k fs X; destruct X; eauto).
  destruct d, d'; cbn [described] in H, H'; try contradiction;
    repeat match goal with
    | X : exists _, _ |- _ => destruct X as [? X]
    | X : _ /\ _ |- _ => destruct X as [? X]
    | X : denotes _ _ _ |- _ => destruct X as [? X]
    end;
    try (match goal with X : struct_fields a _ n ?fs, Y : struct_fields a _ n ?gs |- _ => idtac end;
         f_equal; eapply struct_fields_fun; eassumption);
    repeat match goal with X : struct_fields a _ n _ |- _ => apply DS in X; destruct X as (? & ? & X) end;
    try (match goal with X : declares a n _, Y : declares a n _ |- _ => pose proof (F _ _ _ X Y); discriminate end);
    try (match goal with X : declares a n ?e, Y : ~ declared a n |- _ => exfalso; apply Y; exists e; exact X end);
    try (subst; exfalso; eauto using suffix_qa, suffix_qd, suffix_da; fail).
  - f_equal. rewrite H1 in H0. clear - H0. unfold builtin_name in H0. destruct b, b0; try reflexivity; vm_compute in H0; discriminate.
  - pose proof (F _ _ _ H2 H0) as Z. injection Z as <-. f_equal. eapply denotes_fun; eassumption.
  - f_equal. rewrite H3 in H0. apply app_inv_tail in H0. subst x. eapply denotes_fun; eassumption.
  - f_equal. rewrite H3 in H0. apply app_inv_tail in H0. subst x. eapply denotes_fun; eassumption.
  - f_equal. rewrite H3 in H0. apply app_inv_tail in H0. subst x. eapply denotes_fun; eassumption.
  - f_equal. pose proof (F _ _ _ H1 H0) as Z. injection Z as <-. eapply members_fun; eauto.
Qed.

Section Stable.
  Context (E : float_lib) (m m' : amap).
  (** The types found in both tables. *)
  Definition both (p : bytes) : Prop := exists d, afind p m = Some d /\ afind p m' = Some d.
  Hypothesis closed : forall p d q, both p -> afind p m = Some d -> In q (pointers d) -> both q.

  Lemma deref_both p : both p -> exists d, deref p m = Ok d /\ deref p m' = Ok d /\ forall q, In q (pointers d) -> both q.
  Proof. intros (d & A & B). exists d. unfold deref. rewrite A, B. split; [reflexivity|]. split; [reflexivity|]. intros q Hq. eapply closed; eauto. now exists d. Qed.
  Lemma ext_both p : both p -> is_ext_type m p = is_ext_type m' p.
  Proof. intros H. destruct (deref_both p H) as (d & A & B & _). unfold is_ext_type. now rewrite A, B. Qed.
  Lemma member_both d q (n : bytes) fs : (forall q, In q (pointers d) -> both q) -> d = AStruct fs \/ d = AVariant fs -> In (n, q) fs -> both q.
  Proof. intros H [->| ->] Hq; apply H; cbn [pointers]; change q with (snd (n, q)); now apply in_map. Qed.

  (** ** bin_to_json *)
  Definition b_inv (s : bstate) : Prop := Forall (fun f => both (bf_type f)) (b_stack s).
  Lemma bstart_same c : forall ext p s, both p -> b_inv s ->
    bstart E m c ext p s = bstart E m' c ext p s /\ forall s', bstart E m c ext p s = Ok s' -> b_inv s'.
  Proof.
    induction c as [|c IH]; intros ext p s Hp Hs; cbn [bstart]; [split; [reflexivity|discriminate]|].
    destruct (deref_both p Hp) as (d & -> & -> & Q). cbn [bind].
    destruct d; cbn [pointers] in Q; try (split; [reflexivity|discriminate]).
    - destruct (from_bin _ _ _ _) as [[v r]| |]; cbn [bind]; try (split; [reflexivity|discriminate]).
      destruct (scalar_to_json _ _ _); cbn [bind]; try (split; [reflexivity|discriminate]). split; [reflexivity|]. intros s' [= <-]. exact Hs.
    - destruct (from_bin _ _ _ _) as [[v r]| |]; cbn [bind]; try (split; [reflexivity|discriminate]).
      destruct v as [ |[|]| | | | | ]; try (split; [reflexivity|]; intros s' [= <-]; exact Hs).
      apply IH; [apply Q; now left|exact Hs].
    - apply IH; [apply Q; now left|exact Hs].
    - destruct (varuint32_from_bin _) as [[v r]| |]; cbn [bind]; try (split; [reflexivity|discriminate]).
      split; [reflexivity|]. intros s' [= <-]. constructor; [exact Hp|exact Hs].
    - split; [reflexivity|]. intros s' [= <-]. constructor; [exact Hp|exact Hs].
    - split; [reflexivity|]. intros s' [= <-]. constructor; [exact Hp|exact Hs].
  Qed.
  Lemma badvance_same f rest s : both (bf_type f) -> Forall (fun f => both (bf_type f)) rest ->
    badvance E m f rest s = badvance E m' f rest s /\ forall s', badvance E m f rest s = Ok s' -> b_inv s'.
  Proof.
    intros Hf Hr. unfold badvance. destruct (deref_both _ Hf) as (d & -> & -> & Q). cbn [bind].
    assert (K : forall i o sz, b_inv (BS i o (BF (bf_type f) (bf_ext f) sz (bf_size f) :: rest))) by (intros; constructor; assumption).
    destruct d; try (split; [reflexivity|discriminate]).
    - destruct (_ <? 2 ^ 31); cbn [bind]; [|split; [reflexivity|discriminate]].
      destruct (_ <? bf_size f); [|split; [reflexivity|]; intros s' [= <-]; exact Hr].
      apply bstart_same; [apply Q; now left|apply K].
    - destruct (nthz _ _) as [[name q]|] eqn:N; [|split; [reflexivity|]; intros s' [= <-]; exact Hr].
      assert (Hq : both q) by (eapply member_both; [exact Q|eauto|eapply nthz_In; exact N]).
      rewrite (ext_both q Hq). destruct (is_ext_type m' q); cbn [bind]; try (split; [reflexivity|discriminate]).
      destruct (beq (b_in s) [] && a && bf_ext f); [split; [reflexivity|]; intros s' [= <-]; apply K|].
      apply bstart_same; [exact Hq|apply K].
    - destruct (_ =? 0); [|split; [reflexivity|]; intros s' [= <-]; exact Hr].
      destruct (varuint32_from_bin _) as [[v r]| |]; cbn [bind]; try (split; [reflexivity|discriminate]).
      destruct (nthz _ _) as [[name q]|] eqn:N; [|split; [reflexivity|discriminate]].
      assert (Hq : both q) by (eapply member_both; [exact Q|eauto|eapply nthz_In; exact N]).
      apply bstart_same; [exact Hq|apply K].
  Qed.
  Lemma bstep_same s : b_inv s -> bstep E m s = bstep E m' s /\ forall s', bstep E m s = Ok (inl s') -> b_inv s'.
  Proof.
    intros Hs. unfold bstep. destruct s as [i o [|f rest]]; cbn [b_stack]; [split; [reflexivity|discriminate]|].
    inversion Hs as [|? ? Hf Hr]; subst. destruct (badvance_same f rest (BS i o (f :: rest)) Hf Hr) as [<- K].
    destruct (badvance _ _ _ _ _) as [s1| |]; cbn [bind]; try (split; [reflexivity|discriminate]).
    split; [reflexivity|]. intros s' H. unfold check in H. destruct (Nat.leb _ _); cbn [bind] in H; [|discriminate]. injection H as <-. now apply K.
  Qed.
  Lemma bin_to_json_same p bin r : both p -> bin_to_json E m p bin r -> bin_to_json E m' p bin r.
  Proof.
    intros Hp. unfold bin_to_json. destruct (bstart_same chain_budget true p (BS bin [] []) Hp ltac:(constructor)) as [<- K].
    destruct (bstart _ _ _ _ _ _) as [s| |]; cbn [exec_from]; auto. intros H. eapply (exec_same b_inv); [apply bstep_same| |exact H]. now apply K.
  Qed.

  (** ** json_to_bin *)
  Definition j_inv (c : jconfig) : Prop :=
    match c with
    | JCall _ p s => both p /\ Forall (fun f => both (jf_type f)) (j_stack s)
    | JLoop s => Forall (fun f => both (jf_type f)) (j_stack s)
    end.
  Lemma jobject_same fields f rest s : both (jf_type f) -> Forall (fun f => both (jf_type f)) rest ->
    (forall q n, In (n, q) fields -> both q) ->
    jobject m fields f rest s = jobject m' fields f rest s /\ forall c, jobject m fields f rest s = Ok c -> j_inv c.
  Proof.
    intros Hf Hr Hq. unfold jobject.
    destruct (get_end_object_pred (j_in s)) as [[[|] i]| |]; cbn [bind]; try (split; [reflexivity|discriminate]).
    - destruct (_ =? _); [split; [reflexivity|]; intros c [= <-]; exact Hr|].
      destruct (nthz _ _) as [[name q]|] eqn:N; [|split; [reflexivity|discriminate]]. apply nthz_In in N. apply Hq in N.
      rewrite (ext_both q N). destruct (is_ext_type m' q); cbn [bind]; try (split; [reflexivity|discriminate]).
      split; [reflexivity|]. intros c H. apply bind_Ok in H as (? & _ & [= <-]). exact Hr.
    - destruct (maybe_get_key i) as [[[k|] i']| |]; cbn [bind]; try (split; [reflexivity|discriminate]).
      + split; [reflexivity|]. intros c H. apply bind_Ok in H as (? & _ & H). destruct (nthz _ _) as [[name q]|]; [|discriminate].
        apply bind_Ok in H as (? & _ & [= <-]). constructor; assumption.
      + split; [reflexivity|]. intros c H. destruct (nthz _ _) as [[name q]|] eqn:N; [|discriminate]. injection H as <-. apply nthz_In in N. apply Hq in N.
        split; [exact N|]. constructor; assumption.
  Qed.
  Ltac peel H := repeat (apply bind_Ok in H as (? & _ & H)).
  Lemma jcall_same ext p s : both p -> Forall (fun f => both (jf_type f)) (j_stack s) ->
    jcall E m ext p s = jcall E m' ext p s /\ forall c, jcall E m ext p s = Ok c -> j_inv c.
  Proof.
    intros Hp Hs. unfold jcall. destruct (deref_both p Hp) as (d & -> & -> & Q). cbn [bind].
    destruct d as [b| | | | |q|q|q|fs|fs]; cbn [pointers] in Q; try (split; [reflexivity|discriminate]).
    - split; [reflexivity|]. intros c H. destruct b; apply bind_Ok in H as ([? ?] & _ & H); apply bind_Ok in H as (? & _ & [= <-]); exact Hs.
    - split; [reflexivity|]. intros c H. apply bind_Ok in H as ([[|] ?] & _ & H); injection H as <-; [exact Hs|]. split; [apply Q; now left|exact Hs].
    - split; [reflexivity|]. intros c [= <-]. split; [apply Q; now left|exact Hs].
    - split; [reflexivity|]. intros c H. apply bind_Ok in H as (? & _ & [= <-]). constructor; assumption.
    - destruct (get_start_object _); cbn [bind]; try (split; [reflexivity|discriminate]). apply jobject_same; [exact Hp|exact Hs|].
      intros q n Hq. eapply (member_both (AStruct fs)); [exact Q|now left|exact Hq].
    - split; [reflexivity|]. intros c H. apply bind_Ok in H as (? & _ & [= <-]). constructor; assumption.
  Qed.
  Lemma jadvance_same f rest s : both (jf_type f) -> Forall (fun f => both (jf_type f)) rest ->
    jadvance E m f rest s = jadvance E m' f rest s /\ forall c, jadvance E m f rest s = Ok c -> j_inv c.
  Proof.
    intros Hf Hr. unfold jadvance. destruct (deref_both _ Hf) as (d & -> & -> & Q). cbn [bind].
    destruct d as [b| | | | |q|q|q|fs|fs]; cbn [pointers] in Q; try (split; [reflexivity|discriminate]).
    - split; [reflexivity|]. intros c H. apply bind_Ok in H as ([[|] ?] & _ & H); [injection H as <-; exact Hr|].
      apply bind_Ok in H as (? & _ & [= <-]). split; [apply Q; now left|constructor; assumption].
    - apply jobject_same; [exact Hf|exact Hr|]. intros q n Hq. eapply (member_both (AStruct fs)); [exact Q|now left|exact Hq].
    - split; [reflexivity|]. intros c H. apply bind_Ok in H as ([[|] ?] & _ & H).
      + apply bind_Ok in H as (? & _ & [= <-]). exact Hr.
      + destruct (_ =? 0).
        * apply bind_Ok in H as ([? ?] & _ & H). destruct (find_name _ _ _) as [[? ?]|]; [|discriminate]. apply bind_Ok in H as (? & _ & [= <-]).
          constructor; assumption.
        * destruct (_ =? 1); [|discriminate]. destruct (nthz _ _) as [[name q]|] eqn:N; [|discriminate]. injection H as <-.
          split; [eapply (member_both (AVariant fs)); [exact Q|now right|eapply nthz_In; exact N]|constructor; assumption].
  Qed.
  Lemma jstep_same bin c : j_inv c -> jstep E m bin c = jstep E m' bin c /\ forall c', jstep E m bin c = Ok (inl c') -> j_inv c'.
  Proof.
    intros Hc. destruct c as [ext p s|s]; cbn [jstep].
    - destruct Hc as [Hp Hs]. destruct (jcall_same ext p s Hp Hs) as [<- K]. split; [reflexivity|]. intros c' H.
      apply bind_Ok in H as (c1 & H & [= <-]). now apply K.
    - cbn [j_inv] in Hc. destruct (j_stack s) as [|f rest].
      + split; [reflexivity|]. intros c' H. apply bind_Ok in H as (? & _ & H). apply bind_Ok in H as (? & _ & H). discriminate.
      + inversion Hc as [|? ? Hf Hr]; subst. destruct (jadvance_same f rest s Hf Hr) as [<- K]. split; [reflexivity|]. intros c' H.
        apply bind_Ok in H as (? & _ & H). apply bind_Ok in H as (c1 & H & [= <-]). now apply K.
  Qed.
  Lemma json_to_bin_same p json bin r : both p -> json_to_bin E m p json bin r -> json_to_bin E m' p json bin r.
  Proof. intros Hp H. eapply (exec_same j_inv); [apply jstep_same| |exact H]. split; [exact Hp|constructor]. Qed.

  (** ** json_to_bin_reorderable *)
  Definition r_inv (c : rconfig) : Prop :=
    match c with
    | RCall _ p _ s => both p /\ Forall (fun f => both (rf_type f)) (r_stack s)
    | RLoop s => Forall (fun f => both (rf_type f)) (r_stack s)
    end.
  Lemma robject_same fields f rest s : both (rf_type f) -> Forall (fun f => both (rf_type f)) rest ->
    (forall q n, In (n, q) fields -> both q) ->
    robject m fields f rest s = robject m' fields f rest s /\ forall c, robject m fields f rest s = Ok c -> r_inv c.
  Proof.
    intros Hf Hr Hq. unfold robject. destruct (_ =? _); [split; [reflexivity|]; intros c [= <-]; exact Hr|].
    destruct (nthz _ _) as [[name q]|] eqn:N; [|split; [reflexivity|discriminate]]. apply nthz_In in N. apply Hq in N.
    destruct (rf_value f); try (split; [reflexivity|discriminate]). destruct (ofind name l) as [y|].
    - split; [reflexivity|]. intros c H. apply bind_Ok in H as (? & _ & [= <-]). split; [exact N|constructor; assumption].
    - rewrite (ext_both q N). destruct (is_ext_type m' q); cbn [bind]; try (split; [reflexivity|discriminate]).
      split; [reflexivity|]. intros c H. apply bind_Ok in H as (? & _ & [= <-]). constructor; assumption.
  Qed.
  Lemma rarray_inv q f rest s c : both q -> both (rf_type f) -> Forall (fun f => both (rf_type f)) rest -> rarray q f rest s = Ok c -> r_inv c.
  Proof.
    intros Hq Hf Hr H. unfold rarray in H. destruct (rf_value f); try discriminate. destruct (_ =? _); [injection H as <-; exact Hr|].
    destruct (nthz _ _); [|discriminate]. injection H as <-. split; [exact Hq|constructor; assumption].
  Qed.
  Lemma rcall_same ext p x s : both p -> Forall (fun f => both (rf_type f)) (r_stack s) ->
    rcall E m ext p x s = rcall E m' ext p x s /\ forall c, rcall E m ext p x s = Ok c -> r_inv c.
  Proof.
    intros Hp Hs. unfold rcall. destruct (deref_both p Hp) as (d & -> & -> & Q). cbn [bind].
    destruct d as [b| | | | |q|q|q|fs|fs]; cbn [pointers] in Q; try (split; [reflexivity|discriminate]).
    - split; [reflexivity|]. intros c H. destruct b; destruct x; try discriminate; apply bind_Ok in H as (? & _ & [= <-]); exact Hs.
    - split; [reflexivity|]. intros c H. destruct x; injection H as <-; try exact Hs; (split; [apply Q; now left|exact Hs]).
    - split; [reflexivity|]. intros c [= <-]. split; [apply Q; now left|exact Hs].
    - split; [reflexivity|]. intros c H. destruct x; try discriminate. apply bind_Ok in H as (? & _ & H).
      eapply rarray_inv; [apply Q; now left| | |exact H]; [exact Hp|exact Hs].
    - destruct x; try (split; [reflexivity|discriminate]). apply robject_same; [exact Hp|exact Hs|].
      intros q n Hq. eapply (member_both (AStruct fs)); [exact Q|now left|exact Hq].
    - split; [reflexivity|]. intros c H. destruct x as [| | | |[|[] [|? []]]|]; try discriminate. injection H as <-. constructor; assumption.
  Qed.
  Lemma radvance_same f rest s : both (rf_type f) -> Forall (fun f => both (rf_type f)) rest ->
    radvance m f rest s = radvance m' f rest s /\ forall c, radvance m f rest s = Ok c -> r_inv c.
  Proof.
    intros Hf Hr. unfold radvance. destruct (deref_both _ Hf) as (d & -> & -> & Q). cbn [bind].
    destruct d as [b| | | | |q|q|q|fs|fs]; cbn [pointers] in Q; try (split; [reflexivity|discriminate]).
    - split; [reflexivity|]. intros c H. eapply rarray_inv; [apply Q; now left| | |exact H]; assumption.
    - apply robject_same; [exact Hf|exact Hr|]. intros q n Hq. eapply (member_both (AStruct fs)); [exact Q|now left|exact Hq].
    - split; [reflexivity|]. intros c H. destruct (rf_value f) as [| | | |[|[] [|? []]]|]; try discriminate.
      destruct (_ =? 0); [|injection H as <-; exact Hr]. destruct (find_name _ _ _) as [[i q]|] eqn:N; [|discriminate].
      apply bind_Ok in H as (? & _ & [= <-]). apply find_name_nth in N. apply nthz_In in N.
      split; [eapply (member_both (AVariant fs)); [exact Q|now right|exact N]|constructor; assumption].
  Qed.
  Lemma rstep_same c : r_inv c -> rstep E m c = rstep E m' c /\ forall c', rstep E m c = Ok (inl c') -> r_inv c'.
  Proof.
    intros Hc. destruct c as [ext p x s|s]; cbn [rstep].
    - destruct Hc as [Hp Hs]. destruct (rcall_same ext p x s Hp Hs) as [<- K]. split; [reflexivity|]. intros c' H.
      apply bind_Ok in H as (c1 & H & [= <-]). now apply K.
    - cbn [r_inv] in Hc. destruct (r_stack s) as [|f rest].
      + split; [reflexivity|]. discriminate.
      + inversion Hc as [|? ? Hf Hr]; subst. destruct (radvance_same f rest s Hf Hr) as [<- K]. split; [reflexivity|]. intros c' H.
        apply bind_Ok in H as (c1 & H & [= <-]). now apply K.
  Qed.
  Lemma reorderable_same p json bin r : both p -> json_to_bin_reorderable E m p json bin r -> json_to_bin_reorderable E m' p json bin r.
  Proof.
    intros Hp. unfold json_to_bin_reorderable. destruct (json_to_jvalue json); auto. unfold jvalue_to_bin. intros H.
    eapply (exec_same r_inv); [apply rstep_same| |exact H]. split; [exact Hp|constructor].
  Qed.
End Stable.

Lemma faithful_both a m m' p : functional a -> faithful a m -> faithful a m' -> afind p m <> None -> afind p m' <> None -> both m m' p.
Proof.
  intros F [_ A] [_ B] P Q. destruct (afind p m) as [d|] eqn:D; [|congruence]. destruct (afind p m') as [d'|] eqn:D'; [|congruence].
  exists d. split; [exact D|]. rewrite D'. f_equal. eapply described_fun; [exact F|apply B; exact D'|apply A; exact D].
Qed.
Lemma faithful_closed a m m' : functional a -> faithful a m -> faithful a m' ->
  forall p d q, both m m' p -> afind p m = Some d -> In q (pointers d) -> both m m' q.
Proof.
  intros F A B p d q (d0 & P & P') D Q. assert (d0 = d) by congruence. subst d0.
  destruct (proj2 A _ _ P) as [_ X]. destruct (proj2 B _ _ P') as [_ Y]. rewrite Forall_forall in X, Y.
  destruct (X q Q) as (e & Xe & _). destruct (Y q Q) as (e' & Ye & _). apply (faithful_both a); auto; congruence.
Qed.
