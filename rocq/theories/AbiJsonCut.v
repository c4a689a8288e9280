(** * The ordered converter on malformed texts (proofs only)

    The run on the tokens [ts] followed by a syntax error [e] goes along with the run on
    [ts ++ us] until it asks for a token behind [ts], and then ends with [e]. *)
From Verif Require Import Base Stream TypedBin Json JsonSpec Keys Abi AbiScalar AbiScalarFacts AbiValue AbiRead Machine AbiBin AbiBinFacts AbiBinSound AbiJson AbiJsonFacts AbiJsonSound AbiJsonText JsonSound KeysFacts.

Section Cut.
  Variables (E : float_lib) (m : amap) (bin : bytes).
  Variables (us : list token) (e : error).
  Hypothesis Hus : us <> [].

  Definition cut (s s' : jstate) : Prop := exists ts, j_in s = JS (ts ++ us) None /\ s' = set_in s (JS ts (Some e)).
  Definition cutc (c c' : jconfig) : Prop :=
    match c, c' with
    | JCall x p s, JCall x' p' s' => x = x' /\ p = p' /\ cut s s'
    | JLoop s, JLoop s' => cut s s'
    | _, _ => False
    end.
  Definition follows {A} (R : A -> A -> Prop) (x x' : res A) : Prop :=
    x' = Err e \/ match x, x' with
                  | Ok c, Ok c' => R c c'
                  | Err a, Err b => a = b
                  | Undef a, Undef b => a = b
                  | _, _ => False
                  end.
  Definition at_same {A} (x x' : A * jstream) : Prop :=
    fst x = fst x' /\ exists ts, snd x = JS (ts ++ us) None /\ snd x' = JS ts (Some e).
  Definition keeps {A} (f : jstream -> res (A * jstream)) : Prop :=
    forall ts, follows at_same (f (JS (ts ++ us) None)) (f (JS ts (Some e))).

  Lemma follows_bind {A B} (R : A -> A -> Prop) (Q : B -> B -> Prop) x x' f f' :
    follows R x x' -> (forall a a', R a a' -> follows Q (f a) (f' a')) -> follows Q (let* a := x in f a) (let* a := x' in f' a).
  Proof.
    intros [->|H] F; [left; reflexivity|].
    destruct x, x'; cbn [bind]; try contradiction; try (right; exact H). now apply F.
  Qed.
  Lemma follows_same {A} (R : A -> A -> Prop) x : (forall a, R a a) -> follows R x x.
  Proof. intros H. right. destruct x; auto. Qed.

  Ltac keeps_tac := intros ts; destruct ts as [|[] ts]; [left; reflexivity|..]; right; cbn; try reflexivity;
    (split; [reflexivity|]); cbn; try (eexists; split; reflexivity);
    match goal with |- exists ts', JS (?t :: ts ++ us) None = _ /\ _ => exists (t :: ts); split; reflexivity end.
  Lemma k_bool : keeps get_bool. Proof. keeps_tac. Qed.
  Lemma k_string : keeps get_string. Proof. keeps_tac. Qed.
  Lemma k_null : keeps get_null_pred. Proof. keeps_tac. Qed.
  Lemma k_end_object : keeps get_end_object_pred. Proof. keeps_tac. Qed.
  Lemma k_key : keeps maybe_get_key. Proof. keeps_tac. Qed.
  Lemma k_end_array : keeps get_end_array_pred. Proof. keeps_tac. Qed.
  Definition keeps' (f : jstream -> res jstream) : Prop :=
    forall ts, follows (fun x x' => exists ts, x = JS (ts ++ us) None /\ x' = JS ts (Some e)) (f (JS (ts ++ us) None)) (f (JS ts (Some e))).
  Lemma k_start_object : keeps' get_start_object.
  Proof. intros ts; destruct ts as [|[] ts]; [left; reflexivity|..]; right; cbn; try reflexivity. eexists; split; reflexivity. Qed.
  Lemma k_start_array : keeps' get_start_array.
  Proof. intros ts; destruct ts as [|[] ts]; [left; reflexivity|..]; right; cbn; try reflexivity. eexists; split; reflexivity. Qed.

  (** A stream function followed by a continuation. *)
  Lemma f_get {A B} (f : jstream -> res (A * jstream)) (Q : B -> B -> Prop) s s' g g' : keeps f -> cut s s' ->
    (forall a ts, follows Q (g (a, JS (ts ++ us) None)) (g' (a, JS ts (Some e)))) ->
    follows Q (let* x := f (j_in s) in g x) (let* x := f (j_in s') in g' x).
  Proof.
    intros K (ts & Hs & ->) G. rewrite Hs. cbn [set_in j_in].
    eapply follows_bind; [apply K|]. intros [a i] [a' i'] (Ha & ts' & Hi & Hi'). cbn in *. subst. apply G.
  Qed.
  Lemma f_get' {B} (f : jstream -> res jstream) (Q : B -> B -> Prop) s s' g g' : keeps' f -> cut s s' ->
    (forall ts, follows Q (g (JS (ts ++ us) None)) (g' (JS ts (Some e)))) ->
    follows Q (let* x := f (j_in s) in g x) (let* x := f (j_in s') in g' x).
  Proof.
    intros K (ts & Hs & ->) G. rewrite Hs. cbn [set_in j_in].
    eapply follows_bind; [apply K|]. intros i i' (ts' & -> & ->). apply G.
  Qed.
  Lemma f_bind_same {A B} (x : res A) (Q : B -> B -> Prop) g g' : (forall a, follows Q (g a) (g' a)) ->
    follows Q (let* a := x in g a) (let* a := x in g' a).
  Proof. intros G. destruct x; cbn [bind]; [apply G|right; reflexivity|right; reflexivity]. Qed.
  Lemma f_loop i o z k b ts : i = ts ++ us -> follows cutc (Ok (JLoop (JSt (JS i None) o z k b))) (Ok (JLoop (JSt (JS ts (Some e)) o z k b))).
  Proof. intros ->. right. exists ts. split; reflexivity. Qed.
  Lemma f_call x p i o z k b ts : i = ts ++ us ->
    follows cutc (Ok (JCall x p (JSt (JS i None) o z k b))) (Ok (JCall x p (JSt (JS ts (Some e)) o z k b))).
  Proof. intros ->. right. split; [reflexivity|]. split; [reflexivity|]. exists ts. split; reflexivity. Qed.
  Ltac fin := cbn [set_in set_out set_stack j_in j_out j_sizes j_stack j_skip];
    first [apply f_loop; reflexivity | apply f_call; reflexivity | right; reflexivity].

  Lemma f_object fields f rest s s' : cut s s' -> follows cutc (jobject m fields f rest s) (jobject m fields f rest s').
  Proof.
    intros C. pose proof C as (ts0 & Hs & Hs'). unfold jobject. cbv zeta.
    apply (f_get _ _ _ _ _ _ k_end_object C). intros [|] ts.
    - destruct (jf_pos f + 1 =? _); [subst s'; fin|].
      destruct (nthz fields (jf_pos f + 1)) as [[? q]|]; [|right; reflexivity].
      apply f_bind_same. intros x. apply f_bind_same. intros _. subst s'. fin.
    - assert (C1 : cut (set_in s (JS (ts ++ us) None)) (set_in s (JS ts (Some e)))) by (exists ts; split; reflexivity).
      apply (f_get maybe_get_key cutc _ _
        (fun x => let (key, i) := x in _) (fun x => let (key, i) := x in _) k_key C1). intros [k|] ts1.
      + subst s'. cbn [set_in j_skip]. apply f_bind_same. intros _. destruct (nthz fields (jf_pos f + 1)) as [[name ?]|]; [|right; reflexivity].
        apply f_bind_same. intros _. fin.
      + destruct (nthz fields (jf_pos f)) as [[? q]|]; [|right; reflexivity]. subst s'. fin.
  Qed.

  Lemma f_jcall ext p s s' : cut s s' -> follows cutc (jcall E m ext p s) (jcall E m ext p s').
  Proof.
    intros C. pose proof C as (ts0 & Hs & Hs'). unfold jcall. apply f_bind_same. intros d.
    assert (Base : forall b, follows cutc
      (let* (t, i) := get_string (j_in s) in let* o := scalar_write E b t (j_out s) in Ok (JLoop (set_out (set_in s i) o)))
      (let* (t, i) := get_string (j_in s') in let* o := scalar_write E b t (j_out s') in Ok (JLoop (set_out (set_in s' i) o)))).
    { intros b. apply (f_get _ _ _ _ _ _ k_string C). intros t ts. subst s'. cbn [set_in j_out].
      apply f_bind_same. intros o. fin. }
    destruct d as [b| | | |q|q|q|q|fields|fields]; try (right; reflexivity).
    - destruct b; try apply Base.
      apply (f_get _ _ _ _ _ _ k_bool C). intros t ts. subst s'. cbn [set_in j_out]. apply f_bind_same. intros o. fin.
    - apply (f_get _ _ _ _ _ _ k_null C). intros [|] ts; subst s'; fin.
    - right. split; [reflexivity|]. split; [reflexivity|exact C].
    - apply (f_get' _ _ _ _ _ _ k_start_array C). intros ts. subst s'. fin.
    - apply (f_get' _ _ _ _ _ _ k_start_object C). intros ts. subst s'. cbn [set_in j_stack].
      apply f_object. exists ts. split; reflexivity.
    - apply (f_get' _ _ _ _ _ _ k_start_array C). intros ts. subst s'. fin.
  Qed.

  Lemma f_jadvance f rest s s' : cut s s' -> follows cutc (jadvance E m f rest s) (jadvance E m f rest s').
  Proof.
    intros C. pose proof C as (ts0 & Hs & Hs'). unfold jadvance. apply f_bind_same. intros d.
    destruct d as [b| | | |q|q|q|q|fields|fields]; try (right; reflexivity).
    - apply (f_get _ _ _ _ _ _ k_end_array C). intros [|] ts; subst s'; [fin|]. apply f_bind_same. intros _. fin.
    - now apply f_object.
    - cbv zeta. apply (f_get _ _ _ _ _ _ k_end_array C). intros [|] ts.
      + apply f_bind_same. intros _. subst s'. fin.
      + destruct (jf_pos f + 1 =? 0).
        * assert (C1 : cut (set_in s (JS (ts ++ us) None)) (set_in s (JS ts (Some e)))) by (exists ts; split; reflexivity).
          apply (f_get get_string cutc _ _ (fun x => let (key, i) := x in _) (fun x => let (key, i) := x in _) k_string C1). intros t ts1.
          destruct (find_name t fields 0) as [[i q]|]; [|right; reflexivity]. subst s'. cbn [set_in j_out].
          apply f_bind_same. intros o. fin.
        * destruct (jf_pos f + 1 =? 1); [|right; reflexivity].
          destruct (nthz fields (jf_variant f)) as [[? q]|]; [|right; reflexivity]. subst s'. fin.
  Qed.

  Lemma cut_run c r : exec (jstep E m bin) c r -> forall c', cutc c c' ->
    exec (jstep E m bin) c' (Err e) \/ (exec (jstep E m bin) c' r /\ forall x, r <> Ok x).
  Proof.
    assert (F : forall c c', cutc c c' -> jstep E m bin c' = Err e \/
      match jstep E m bin c with
      | Ok (inl d) => exists d', jstep E m bin c' = Ok (inl d') /\ cutc d d'
      | Ok (inr _) => False
      | Err a => jstep E m bin c' = Err a
      | Undef a => jstep E m bin c' = Undef a
      end).
    { assert (L : forall x x', follows cutc x x' -> (let* c0 := x' in Ok (inl c0 : jconfig + bytes)) = Err e \/
        match (let* c0 := x in Ok (inl c0 : jconfig + bytes)) with
        | Ok (inl d) => exists d', (let* c0 := x' in Ok (inl c0 : jconfig + bytes)) = Ok (inl d') /\ cutc d d'
        | Ok (inr _) => False
        | Err a => (let* c0 := x' in Ok (inl c0 : jconfig + bytes)) = Err a
        | Undef a => (let* c0 := x' in Ok (inl c0 : jconfig + bytes)) = Undef a
        end).
      { intros x x' [->|H]; [left; reflexivity|]. right. destruct x, x'; try contradiction; cbn [bind]; try congruence. eauto. }
      intros [x p s|s] [x' p' s'|s'] C; try contradiction; cbn [jstep].
      - destruct C as (<- & <- & C). apply L, f_jcall, C.
      - pose proof C as (ts & Hs & Hs').
        assert (K : j_stack s' = j_stack s) by (subst s'; reflexivity). rewrite K.
        destruct (j_stack s) as [|f rest].
        + assert (A : at_end (j_in s) = false) by (rewrite Hs; unfold at_end; cbn [toks jtail]; destruct (ts ++ us) eqn:X; [apply app_eq_nil in X; tauto|reflexivity]).
          assert (A' : at_end (j_in s') = false) by (subst s'; unfold at_end; cbn [set_in j_in toks jtail]; destruct ts; reflexivity).
          rewrite A, A'. right. reflexivity.
        + destruct (check _ _); cbn [bind]; [|right; reflexivity|right; reflexivity]. apply L, f_jadvance, C. }
    induction 1 as [s r Hs|s s1 r Hs _ IH|s a Hs|s a Hs]; intros c' C; destruct (F _ _ C) as [G|G];
      try (left; apply exec_err; exact G); rewrite Hs in G.
    - destruct G.
    - destruct G as (d' & Hd & Cd). destruct (IH _ Cd) as [R|[R N]]; [left|right; split; auto]; eapply exec_step; eauto.
    - right. split; [apply exec_err; exact G|discriminate].
    - right. split; [apply exec_undef; exact G|discriminate].
  Qed.
End Cut.

Theorem json_to_bin_malformed E m p text bin ts e : float_lib_ok E -> sound_map m -> bytes_ok text -> short text ->
  tokenize text = (ts, Some e) ->
  exists j, arrays_ok j /\ texts_ok j /\ exists r, json_to_bin E m p text bin r /\
     ((exists x, r = Err x) \/ exists w, r = Undef w /\ jread E m 128 true p j = Undef w).
Proof.
  intros HE SM Hb Hs Ht. destruct (malformed_tokens _ _ _ Hb Ht) as (j & us & Hu & Hj & Hc & Hl).
  destruct (tokenize_tokens _ _ _ Hb Hs Ht) as [Ht1 Ht2].
  assert (To : texts_ok j) by (apply tokens_texts; rewrite Hj; apply Forall_app; split; assumption).
  assert (Ao : arrays_ok j) by (apply tokens_arrays; rewrite Hj, app_length; unfold short in Hs; lia).
  exists j. split; [exact Ao|]. split; [exact To|].
  assert (R : exec (jstep E m bin) (JCall true p (JSt (JS (ts ++ us) None) [] [] [] false)) (let* v := jread E m 128 true p j in Ok (bin ++ enc v))).
  { pose proof (sim_val E m bin HE (fun p => sound_chain m p SM) 128 true p j [] None [] [] [] To eq_refl) as S. rewrite app_nil_r, Hj in S.
    destruct (jread E m 128 true p j) as [v|x|w] eqn:J; cbn [bind]; [|exact S|exact S].
    destruct S as (c & (sk & _ & ->) & R). cbn [app List.length] in R. eapply star_exec; [exact R|]. apply exec_done.
    cbn [jstep j_stack j_in j_out j_sizes]. change (at_end (JS [] None)) with true. cbn [check bind].
    rewrite splice_all; [reflexivity|]. eapply jread_sized; eauto. }
  destruct (cut_run E m bin us e Hu _ _ R (JCall true p (JSt (JS ts (Some e)) [] [] [] false))) as [G|[G N]].
  - split; [reflexivity|]. split; [reflexivity|]. exists ts. split; reflexivity.
  - exists (Err e). split; [unfold json_to_bin, open_json; rewrite Ht; exact G|left; eauto].
  - eexists. split; [unfold json_to_bin, open_json; rewrite Ht; exact G|].
    destruct (jread E m 128 true p j) as [v|x|w]; cbn [bind] in *; [exfalso; eapply N; reflexivity|left; eauto|right; eauto].
Qed.
