(** * TypedJsonText: the native JSON reader on malformed texts and without undefined behaviour (proofs for C41) *)
From Verif Require Import Base TypedBin TypedSpec Json JsonSpec JsonSound Abi AbiScalar AbiRead AbiReadBack AbiJsonFacts AbiJsonText AbiJsonSafe TypedJson TypedJsonSpec TypedJsonFacts TypedJsonRead.

(** ** A text cut short
    What is read from the tokens [ts] before a syntax error is also read from [ts ++ us]. *)
Section Cut.
  Context (us : list token) (e : error).
  Definition cut_at {A} (f : jstream -> res (A * jstream)) : Prop := forall ts a s, f (JS ts (Some e)) = Ok (a, s) ->
    exists ts', s = JS ts' (Some e) /\ f (JS (ts ++ us) None) = Ok (a, JS (ts' ++ us) None).
  Definition cut_at' (f : jstream -> res jstream) : Prop := forall ts s, f (JS ts (Some e)) = Ok s ->
    exists ts', s = JS ts' (Some e) /\ f (JS (ts ++ us) None) = Ok (JS (ts' ++ us) None).
  Ltac ct := intros ts a s H; destruct ts as [|[] ts]; cbn in H; try discriminate; injection H as <- <-; eexists; split; reflexivity.
  Ltac ct' := intros ts s H; destruct ts as [|[] ts]; cbn in H; try discriminate; injection H as <-; eexists; split; reflexivity.
  Lemma c_string : cut_at get_string. Proof. ct. Qed.
  Lemma c_bool : cut_at get_bool. Proof. ct. Qed.
  Lemma c_key : cut_at get_key. Proof. ct. Qed.
  Lemma c_null : cut_at get_null_pred. Proof. ct. Qed.
  Lemma c_start_array : cut_at' get_start_array. Proof. ct'. Qed.
  Lemma c_end_array : cut_at' get_end_array. Proof. ct'. Qed.
  Lemma c_start_object : cut_at' get_start_object. Proof. ct'. Qed.
  Lemma c_end_object : cut_at' get_end_object. Proof. ct'. Qed.
  Lemma c_skip : cut_at' from_json_skip_value.
  Proof.
    unfold from_json_skip_value, cut_at'. cbn [toks jtail]. intros ts. generalize 0 as d.
    induction ts as [|t ts IH]; intros d s H; cbn [skip_value app] in *; [discriminate|]. cbv zeta in *.
    destruct (_ =? 0) in *; [|now apply IH]. injection H as <-. exists ts. split; reflexivity.
  Qed.
  Lemma peek_cut ts t : peek_token (JS ts (Some e)) = Ok t -> peek_token (JS (ts ++ us) None) = Ok t.
  Proof. unfold peek_token. cbn [toks jtail]. destruct ts; [discriminate|]. cbn [app]. auto. Qed.
  Lemma c_items f : cut_at f -> forall fuel fuel' acc ts l s, (fuel <= fuel')%nat -> read_items f fuel acc (JS ts (Some e)) = Ok (l, s) ->
    exists ts', s = JS ts' (Some e) /\ read_items f fuel' acc (JS (ts ++ us) None) = Ok (l, JS (ts' ++ us) None).
  Proof.
    intros F. induction fuel as [|fuel IH]; intros fuel' acc ts l s Hf H; [discriminate|]. destruct fuel' as [|fuel']; [lia|].
    cbn [read_items] in *. apply bind_Ok in H as (t & Ht & H). rewrite (peek_cut _ _ Ht). cbn [bind].
    assert (G : (let* (v, s0) := f (JS ts (Some e)) in read_items f fuel (acc ++ [v]) s0) = Ok (l, s) ->
      exists ts', s = JS ts' (Some e) /\ (let* (v, s0) := f (JS (ts ++ us) None) in read_items f fuel' (acc ++ [v]) s0) = Ok (l, JS (ts' ++ us) None)).
    { clear H. intros H. apply bind_Ok in H as ([v s1] & H1 & H). apply F in H1 as (ts1 & -> & ->). cbn [bind]. apply (IH fuel') in H; [exact H|lia]. }
    destruct t as [[]|]; try (apply G; exact H). injection H as <- <-. eexists. split; reflexivity.
  Qed.
  Lemma c_members ps : Forall (fun p => forall cur, cut_at (snd p cur)) ps -> forall fuel fuel' l ts l' s, (fuel <= fuel')%nat ->
    read_members ps fuel l (JS ts (Some e)) = Ok (l', s) ->
    exists ts', s = JS ts' (Some e) /\ read_members ps fuel' l (JS (ts ++ us) None) = Ok (l', JS (ts' ++ us) None).
  Proof.
    intros F. induction fuel as [|fuel IH]; intros fuel' l ts l' s Hf H; [discriminate|]. destruct fuel' as [|fuel']; [lia|].
    cbn [read_members] in *. apply bind_Ok in H as (t & Ht & H). rewrite (peek_cut _ _ Ht). cbn [bind].
    match goal with |- exists ts', s = _ /\ match t with Some _ => _ | None => ?body end = _ =>
      assert (G : (let* (k, s0) := get_key (JS ts (Some e)) in
        match find_named k ps 0 with
        | Some (i, f) => match nthz l i with Some cur => let* (v, s1) := f cur s0 in read_members ps fuel (set_nth l (Z.to_nat i) v) s1 | None => ill end
        | None => let* s1 := from_json_skip_value s0 in read_members ps fuel l s1
        end) = Ok (l', s) -> exists ts', s = JS ts' (Some e) /\ body = Ok (l', JS (ts' ++ us) None)) end.
    { clear H. intros H. apply bind_Ok in H as ([k s1] & Hk & H). apply c_key in Hk as (ts1 & -> & ->). cbn [bind].
      destruct (find_named k ps 0) as [[i f]|] eqn:Fn.
      - destruct (nthz l i) as [cur|]; [|discriminate]. apply bind_Ok in H as ([v s2] & H1 & H).
        rewrite Forall_forall in F. apply find_named_In in Fn. apply (F _ Fn cur) in H1 as (ts2 & -> & Q). cbn [snd] in Q. rewrite Q. cbn [bind]. apply (IH fuel') in H; [exact H|lia].
      - apply bind_Ok in H as (s2 & H1 & H). apply c_skip in H1 as (ts2 & -> & ->). cbn [bind]. apply (IH fuel') in H; [exact H|lia]. }
    destruct t as [[]|]; try (apply G; exact H). injection H as <- <-. eexists. split; reflexivity.
  Qed.
  Lemma fuel_cut ts te te' : (fuel_of (JS ts te) <= fuel_of (JS (ts ++ us) te'))%nat.
  Proof. unfold fuel_of. cbn [toks]. rewrite app_length. lia. Qed.
  Theorem from_json_cut E : forall t cur, cut_at (from_json E t cur).
  Proof.
    induction t as [b|t IH|t IH|tys IH|nm fs IH|a b IHa IHb|t IH| |t IH|names|k] using jty_ind'; intros cur ts v s H; try discriminate H.
    - assert (K : b <> B_bool -> (let* (x, s0) := get_string (JS ts (Some e)) in let* v0 := scalar_from_text E b x in Ok (v0, s0)) = Ok (v, s) ->
        exists ts', s = JS ts' (Some e) /\ (let* (x, s0) := get_string (JS (ts ++ us) None) in let* v0 := scalar_from_text E b x in Ok (v0, s0)) = Ok (v, JS (ts' ++ us) None)).
      { intros _ K. apply bind_Ok in K as ([x s1] & K1 & K). apply c_string in K1 as (ts1 & -> & ->). cbn [bind]. apply bind_Ok in K as (v1 & -> & K). cbn [bind].
        injection K as <- <-. eexists. split; reflexivity. }
      destruct b; try (apply K; [discriminate|exact H]). cbn [from_json] in *. apply bind_Ok in H as ([x s1] & H1 & H). apply c_bool in H1 as (ts1 & -> & ->).
      cbn [bind]. injection H as <- <-. eexists. split; reflexivity.
    - cbn [from_json] in *. destruct cur as [| | | |l| |]; try discriminate H.
      apply bind_Ok in H as (s1 & H1 & H). apply c_start_array in H1 as (ts1 & -> & ->). cbn [bind]. apply bind_Ok in H as ([l2 s2] & H2 & H).
      eapply (c_items _ (IH (jdefault t))) in H2 as (ts2 & -> & H2); [|apply fuel_cut]. rewrite H2. cbn [bind].
      apply bind_Ok in H as (s3 & H3 & H). apply c_end_array in H3 as (ts3 & -> & ->). cbn [bind]. injection H as <- <-. eexists. split; reflexivity.
    - cbn [from_json] in *. apply bind_Ok in H as ([b s1] & H1 & H). apply c_null in H1 as (ts1 & -> & ->). cbn [bind]. destruct b.
      + injection H as <- <-. eexists. split; reflexivity.
      + apply bind_Ok in H as ([v2 s2] & H2 & H). apply IH in H2 as (ts2 & -> & ->). cbn [bind]. injection H as <- <-. eexists. split; reflexivity.
    - cbn [from_json] in *. apply bind_Ok in H as (s1 & H1 & H). apply c_start_array in H1 as (ts1 & -> & ->). cbn [bind].
      apply bind_Ok in H as ([k s2] & H2 & H). apply c_string in H2 as (ts2 & -> & ->). cbn [bind].
      destruct (find_named k _ 0) as [[i f]|] eqn:F; [|discriminate]. apply find_named_In in F. apply in_map_iff in F as (t & Ft & Hin).
      cbn [snd] in Ft. assert (f = from_json E t (jdefault t)) by congruence. subst f.
      apply bind_Ok in H as ([v3 s3] & H3 & H). rewrite Forall_forall in IH. apply (IH t Hin) in H3 as (ts3 & -> & ->). cbn [bind].
      apply bind_Ok in H as (s4 & H4 & H). apply c_end_array in H4 as (ts4 & -> & ->). cbn [bind]. injection H as <- <-. eexists. split; reflexivity.
    - cbn [from_json] in *. destruct cur as [| | | |l| |]; try discriminate H.
      apply bind_Ok in H as (s1 & H1 & H). apply c_start_object in H1 as (ts1 & -> & ->). cbn [bind]. apply bind_Ok in H as ([l2 s2] & H2 & H).
      eapply c_members in H2 as (ts2 & -> & H2); [|apply Forall_map; eapply Forall_impl; [|exact IH]; cbv beta; cbn [snd]; auto|apply fuel_cut].
      rewrite H2. cbn [bind].
      apply bind_Ok in H as (s3 & H3 & H). apply c_end_object in H3 as (ts3 & -> & ->). cbn [bind]. injection H as <- <-. eexists. split; reflexivity.
    - cbn [from_json] in *. now apply IH in H.
  Qed.
End Cut.

(** Malformed texts are never read. *)
Theorem malformed_fails E t cur text ts e v s : bytes_ok text -> Z.of_nat (List.length text) < 2 ^ 62 -> tokenize text = (ts, Some e) ->
  (List.length ts <= List.length text)%nat -> from_json E t cur (JS ts (Some e)) <> Ok (v, s).
Proof.
  intros Hb Hs T L H. destruct (malformed_tokens text ts e Hb T) as (j & us & Hu & Hj & _ & Lu).
  destruct (from_json_cut us e E t cur ts v s H) as (ts' & _ & Q). rewrite <- Hj in Q. rewrite <- (app_nil_r (tokens j)) in Q.
  apply run_reads in Q as [Q _].
  - destruct ts'; cbn [app] in Q; [|discriminate]. apply Hu. congruence.
  - unfold small, tsize. rewrite Hj, app_length. lia.
Qed.

(** ** No undefined behaviour *)
(** Types with a from_json. *)
Fixpoint readable (t : jty) : bool :=
  match t with
  | JScalar _ | JPair _ _ => true
  | JVec t | JOpt t | JMaybe t => readable t
  | JVariant ts => forallb readable ts
  | JStruct _ fs => forallb (fun f => readable (snd f)) fs
  | JView | JOpaque _ | JEnum _ | JRef _ => false
  end.
(** The objects read into have the shape of their type. *)
Fixpoint shaped (t : jty) (v : val) {struct t} : bool :=
  match t, v with
  | JVec _, VList _ => true
  | JStruct _ fs, VList l => forallb2 (map (fun f => shaped (snd f)) fs) l
  | JMaybe t, _ => shaped t v
  | (JVec _ | JStruct _ _), _ => false
  | _, _ => true
  end.

Lemma shaped_default : forall t, shaped t (jdefault t) = true.
Proof.
  unfold jdefault. induction t as [b|t IH|t IH|tys IH|nm fs IH|a b IHa IHb|t IH| |t IH|names|k] using jty_ind'; cbn [erase default_of shaped]; auto.
  induction IH as [|f fs H _ IHf]; [reflexivity|]. cbn [map forallb2]. now rewrite H, IHf.
Qed.
Lemma shaped_set (ps : list (val -> bool)) l n v p : forallb2 ps l = true -> nth_error ps n = Some p -> p v = true -> forallb2 ps (set_nth l n v) = true.
Proof.
  revert l n. induction ps as [|q ps IH]; intros [|x l] n F N V; try discriminate; [destruct n; discriminate|].
  cbn [forallb2] in F. apply andb_true_iff in F as [F1 F2]. destruct n as [|n]; cbn [set_nth forallb2 nth_error] in *.
  - assert (q = p) by congruence. subst q. now rewrite V, F2.
  - now rewrite F1, (IH _ _ F2 N V).
Qed.
Lemma shaped_nth (ps : list (val -> bool)) l n p : forallb2 ps l = true -> nth_error ps n = Some p -> exists x, nth_error l n = Some x /\ p x = true.
Proof.
  revert l n. induction ps as [|q ps IH]; intros [|x l] n F N; try discriminate; [destruct n; discriminate|].
  cbn [forallb2] in F. apply andb_true_iff in F as [F1 F2]. destruct n as [|n]; cbn [nth_error] in *; [|eauto]. exists x. split; [reflexivity|congruence].
Qed.

(** Reading keeps the shape and the way the token stream ends. *)
Definition keeps_tail {A} (f : jstream -> res (A * jstream)) : Prop := forall s a s', f s = Ok (a, s') -> jtail s' = jtail s.
Ltac kt := intros s a s' H; destruct s as [[|[] ts] [te|]]; cbn in H; try discriminate; injection H as <- <-; reflexivity.
Ltac kt' := intros H; match goal with s : jstream |- _ => destruct s as [[|[] ts] [te|]]; cbn in H; try discriminate; injection H as <-; reflexivity end.
Lemma t_string : keeps_tail get_string. Proof. kt. Qed.
Lemma t_bool : keeps_tail get_bool. Proof. kt. Qed.
Lemma t_key : keeps_tail get_key. Proof. kt. Qed.
Lemma t_null : keeps_tail get_null_pred. Proof. kt. Qed.
Lemma t_start_array s s' : get_start_array s = Ok s' -> jtail s' = jtail s. Proof. kt'. Qed.
Lemma t_end_array s s' : get_end_array s = Ok s' -> jtail s' = jtail s. Proof. kt'. Qed.
Lemma t_start_object s s' : get_start_object s = Ok s' -> jtail s' = jtail s. Proof. kt'. Qed.
Lemma t_end_object s s' : get_end_object s = Ok s' -> jtail s' = jtail s. Proof. kt'. Qed.
Lemma t_skip s s' : from_json_skip_value s = Ok s' -> jtail s' = jtail s.
Proof.
  unfold from_json_skip_value. destruct s as [ts te]. cbn [toks jtail]. generalize 0 as d.
  induction ts as [|t ts IH]; intros d H; cbn [skip_value] in H.
  - destruct te; [discriminate|]. destruct (_ =? 0) in H; [|discriminate]. injection H as <-. reflexivity.
  - cbv zeta in H. destruct (_ =? 0) in H; [injection H as <-; reflexivity|eauto].
Qed.
Lemma t_items f : keeps_tail f -> forall fuel acc, keeps_tail (read_items f fuel acc).
Proof.
  intros F. induction fuel as [|fuel IH]; intros acc s l s' H; cbn [read_items] in H; [discriminate|].
  apply bind_Ok in H as (t & _ & H). destruct t as [[]|]; try (apply bind_Ok in H as ([v s1] & H1 & H); apply F in H1; apply IH in H; congruence).
  injection H as <- <-. reflexivity.
Qed.
Lemma t_members ps : Forall (fun p => forall cur, keeps_tail (snd p cur)) ps -> forall fuel l, keeps_tail (read_members ps fuel l).
Proof.
  intros F. induction fuel as [|fuel IH]; intros l s l' s' H; cbn [read_members] in H; [discriminate|].
  apply bind_Ok in H as (t & _ & H).
  assert (K : (let* (k, s0) := get_key s in
       match find_named k ps 0 with
       | Some (i, f) => match nthz l i with Some cur => let* (v, s1) := f cur s0 in read_members ps fuel (set_nth l (Z.to_nat i) v) s1 | None => ill end
       | None => let* s1 := from_json_skip_value s0 in read_members ps fuel l s1
       end) = Ok (l', s') -> jtail s' = jtail s).
  { clear H. intros H. apply bind_Ok in H as ([k s1] & Hk & H). apply t_key in Hk.
    destruct (find_named k ps 0) as [[i f]|] eqn:Fn.
    - destruct (nthz l i) as [cur|]; [|discriminate]. apply bind_Ok in H as ([v s2] & H1 & H). apply IH in H.
      rewrite Forall_forall in F. apply find_named_In in Fn. apply (F _ Fn cur) in H1. congruence.
    - apply bind_Ok in H as (s2 & H1 & H). apply IH in H. apply t_skip in H1. congruence. }
  destruct t as [[]|]; try (apply K; exact H). injection H as <- <-. reflexivity.
Qed.
Lemma from_json_tail E : forall t cur, keeps_tail (from_json E t cur).
Proof.
  induction t as [b|t IH|t IH|tys IH|nm fs IH|a b IHa IHb|t IH| |t IH|names|k] using jty_ind'; intros cur s v s' H; try discriminate H.
  - assert (K : b <> B_bool -> (let* (x, s0) := get_string s in let* v0 := scalar_from_text E b x in Ok (v0, s0)) = Ok (v, s') -> jtail s' = jtail s).
    { intros _ K. apply bind_Ok in K as ([x s1] & K1 & K). apply t_string in K1. apply bind_Ok in K as (v1 & _ & K). congruence. }
    destruct b; try (apply K; [discriminate|exact H]). cbn [from_json] in H. apply bind_Ok in H as ([x s1] & H1 & H). apply t_bool in H1. congruence.
  - cbn [from_json] in H. destruct cur as [| | | |l| |]; try discriminate.
    apply bind_Ok in H as (s1 & H1 & H). apply bind_Ok in H as ([l2 s2] & H2 & H). apply bind_Ok in H as (s3 & H3 & H).
    apply t_start_array in H1. apply t_items in H2; [|apply IH]. apply t_end_array in H3. congruence.
  - cbn [from_json] in H. apply bind_Ok in H as ([b s1] & H1 & H). apply t_null in H1. destruct b; [congruence|].
    apply bind_Ok in H as ([v2 s2] & H2 & H). apply IH in H2. congruence.
  - cbn [from_json] in H. apply bind_Ok in H as (s1 & H1 & H). apply bind_Ok in H as ([k s2] & H2 & H).
    apply t_start_array in H1. apply t_string in H2.
    destruct (find_named k _ 0) as [[i f]|] eqn:F; [|discriminate]. apply find_named_In in F. apply in_map_iff in F as (t & Ft & Hin).
    cbn [snd] in Ft. assert (f = from_json E t (jdefault t)) by congruence. subst f.
    apply bind_Ok in H as ([v3 s3] & H3 & H). rewrite Forall_forall in IH. apply (IH t Hin) in H3. apply bind_Ok in H as (s4 & H4 & H). apply t_end_array in H4. congruence.
  - cbn [from_json] in H. destruct cur as [| | | |l| |]; try discriminate.
    apply bind_Ok in H as (s1 & H1 & H). apply bind_Ok in H as ([l2 s2] & H2 & H). apply bind_Ok in H as (s3 & H3 & H).
    apply t_start_object in H1. apply t_end_object in H3. apply t_members in H2; [congruence|]. apply Forall_map. eapply Forall_impl; [|exact IH]. cbv beta. cbn [snd]. auto.
  - cbn [from_json] in H. eapply IH; eauto.
Qed.

Definition shape_kept (t : jty) (f : val -> jstream -> res (val * jstream)) : Prop :=
  forall cur s v s', shaped t cur = true -> f cur s = Ok (v, s') -> shaped t v = true.
Lemma members_shape fs (E : float_lib) : Forall (fun f => shape_kept (snd f) (from_json E (snd f))) fs -> forall fuel l s l' s',
  forallb2 (map (fun f => shaped (snd f)) fs) l = true ->
  read_members (map (fun f => (fst f, from_json E (snd f))) fs) fuel l s = Ok (l', s') -> forallb2 (map (fun f => shaped (snd f)) fs) l' = true.
Proof.
  intros F. induction fuel as [|fuel IH]; intros l s l' s' S H; cbn [read_members] in H; [discriminate|].
  apply bind_Ok in H as (t & _ & H).
  match type of H with match t with Some _ => _ | None => ?body end = _ => assert (K : body = Ok (l', s') -> forallb2 (map (fun f => shaped (snd f)) fs) l' = true) end.
  { clear H. intros H. apply bind_Ok in H as ([k s1] & _ & H).
    destruct (find_named k _ 0) as [[i f]|] eqn:Fn.
    - apply find_named_first in Fn as (n & Hi & Fn). rewrite Z.add_0_l in Hi. subst i. apply (first_named_map k (fun t' => from_json E t')) in Fn as (ty & -> & Fn).
      rewrite nthz_nth in H. destruct (nth_error l n) as [cur|] eqn:N; [|discriminate]. apply bind_Ok in H as ([v s2] & H1 & H). rewrite Nat2Z.id in H.
      destruct Fn as [Fn _]. pose proof (map_nth_error (fun f : bytes * jty => shaped (snd f)) _ _ Fn) as Q. cbn [snd] in Q.
      destruct (shaped_nth _ _ _ _ S Q) as (x & Hx & Sx). assert (x = cur) by congruence. subst x.
      rewrite Forall_forall in F. apply nth_error_In in Fn. pose proof (F _ Fn _ _ _ _ Sx H1) as Sv. cbn [snd] in Sv.
      eapply IH; [|exact H]. eapply shaped_set; eauto.
    - apply bind_Ok in H as (s2 & _ & H). eapply IH; eauto. }
  destruct t as [[]|]; try (apply K; exact H). assert (l' = l) by congruence. subst. exact S.
Qed.
Lemma from_json_shape E : forall t, shape_kept t (from_json E t).
Proof.
  induction t as [b|t IH|t IH|tys IH|nm fs IH|a b IHa IHb|t IH| |t IH|names|k] using jty_ind'; intros cur s v s' S H; try discriminate H; try reflexivity.
  - cbn [from_json] in H. destruct cur as [| | | |l| |]; try discriminate.
    apply bind_Ok in H as (s1 & H1 & H). apply bind_Ok in H as ([l2 s2] & H2 & H). apply bind_Ok in H as (s3 & H3 & H). assert (v = VList l2) by congruence. subst. reflexivity.
  - cbn [from_json] in H. destruct cur as [| | | |l| |]; try discriminate.
    apply bind_Ok in H as (s1 & H1 & H). apply bind_Ok in H as ([l2 s2] & H2 & H). apply bind_Ok in H as (s3 & H3 & H). assert (v = VList l2) by congruence. subst.
    cbn [shaped] in *. eapply members_shape; eauto.
  - cbn [from_json shaped] in *. eapply IH; eauto.
Qed.

(** The ways to undefined behaviour. *)
Definition hazard (E : float_lib) (s : jstream) (w : string) : Prop := date_hazard E w \/ (w = "endless loop"%string /\ jtail s = None).
Lemma skip_undef s w : from_json_skip_value s = Undef w -> w = "endless loop"%string /\ jtail s = None.
Proof.
  unfold from_json_skip_value. destruct s as [ts te]. cbn [toks jtail]. generalize 0 as d.
  induction ts as [|t ts IH]; intros d H; cbn [skip_value] in H.
  - destruct te; [discriminate|]. destruct (_ =? 0) in H; [discriminate|]. split; congruence.
  - cbv zeta in H. destruct (_ =? 0) in H; [discriminate|eauto].
Qed.
Ltac nu := intros H; match goal with s : jstream |- _ => destruct s as [[|[] ts] [te|]]; cbn in H; discriminate end.
Lemma u_string s w : get_string s <> Undef w. Proof. nu. Qed.
Lemma u_bool s w : get_bool s <> Undef w. Proof. nu. Qed.
Lemma u_key s w : get_key s <> Undef w. Proof. nu. Qed.
Lemma u_null s w : get_null_pred s <> Undef w. Proof. nu. Qed.
Lemma u_start_array s w : get_start_array s <> Undef w. Proof. nu. Qed.
Lemma u_end_array s w : get_end_array s <> Undef w. Proof. nu. Qed.
Lemma u_start_object s w : get_start_object s <> Undef w. Proof. nu. Qed.
Lemma u_end_object s w : get_end_object s <> Undef w. Proof. nu. Qed.
Lemma u_peek s w : peek_token s <> Undef w. Proof. nu. Qed.
Lemma hazard_eq E s s' w : jtail s = jtail s' -> hazard E s w -> hazard E s' w.
Proof. unfold hazard. now intros ->. Qed.
Definition safe_at E (f : jstream -> res (val * jstream)) : Prop := forall s w, f s = Undef w -> hazard E s w.
Lemma items_safe E f : safe_at E f -> progresses f -> keeps_tail f -> forall fuel acc s w, (left_of s < fuel)%nat ->
  read_items f fuel acc s = Undef w -> hazard E s w.
Proof.
  intros S P T. induction fuel as [|fuel IH]; intros acc s w L H; cbn [read_items] in H; [lia|].
  apply bind_undef in H as [H|(t & _ & H)]; [now apply u_peek in H|].
  assert (K : (let* (v, s0) := f s in read_items f fuel (acc ++ [v]) s0) = Undef w -> hazard E s w).
  { clear H. intros H. apply bind_undef in H as [H|([v s1] & H1 & H)]; [now apply S|]. pose proof (P _ _ _ H1). pose proof (T _ _ _ H1) as Q. symmetry in Q.
    apply IH in H; [|lia]. eapply hazard_eq; [|exact H]. now symmetry. }
  destruct t as [[]|]; try (apply K; exact H). discriminate.
Qed.
Lemma skip_len s s' : from_json_skip_value s = Ok s' -> (left_of s' <= left_of s)%nat.
Proof.
  unfold from_json_skip_value. destruct s as [[|t ts] te]; cbn [toks jtail]; intros H.
  - cbn [skip_value] in H. destruct te; [discriminate|]. cbn [Z.eqb] in H. injection H as <-. apply le_n.
  - apply skip_progress in H; [|discriminate]. unfold left_of in *. cbn [toks]. lia.
Qed.
Lemma members_safe E fs : Forall (fun f => forall cur, shaped (snd f) cur = true -> safe_at E (from_json E (snd f) cur)) fs ->
  forall fuel l s w, (left_of s < fuel)%nat -> forallb2 (map (fun f => shaped (snd f)) fs) l = true ->
  read_members (map (fun f => (fst f, from_json E (snd f))) fs) fuel l s = Undef w -> hazard E s w.
Proof.
  intros F. induction fuel as [|fuel IH]; intros l s w L S H; cbn [read_members] in H; [lia|].
  apply bind_undef in H as [H|(t & _ & H)]; [now apply u_peek in H|].
  match type of H with match t with Some _ => _ | None => ?body end = _ => assert (K : body = Undef w -> hazard E s w) end.
  { clear H. intros H. apply bind_undef in H as [H|([k s1] & H1 & H)]; [now apply u_key in H|]. pose proof (get_key_len _ _ _ H1) as L1. pose proof (t_key _ _ _ H1) as T1.
    destruct (find_named k _ 0) as [[i f]|] eqn:Fn.
    - apply find_named_first in Fn as (n & Hi & Fn). rewrite Z.add_0_l in Hi. subst i. apply (first_named_map k (fun t' => from_json E t')) in Fn as (ty & -> & [Fn _]).
      pose proof (map_nth_error (fun f : bytes * jty => shaped (snd f)) _ _ Fn) as Q. cbn [snd] in Q.
      destruct (shaped_nth _ _ _ _ S Q) as (cur & Hc & Sc). rewrite nthz_nth, Hc, Nat2Z.id in H.
      rewrite Forall_forall in F. apply nth_error_In in Fn. apply bind_undef in H as [H|([v s2] & H2 & H)].
      + apply (F _ Fn cur Sc) in H. eapply hazard_eq; [|exact H]. now symmetry.
      + pose proof (from_json_progress E _ _ _ _ _ H2) as L2. pose proof (from_json_tail E _ _ _ _ _ H2) as T2.
        apply IH in H; [eapply hazard_eq; [|exact H]; congruence|lia|]. eapply shaped_set; eauto. eapply from_json_shape; eauto.
    - apply bind_undef in H as [H|(s2 & H2 & H)].
      + apply skip_undef in H as [H H']. right. split; congruence.
      + pose proof (t_skip _ _ H2). pose proof (skip_len _ _ H2). apply IH in H; [eapply hazard_eq; [|exact H]; congruence|lia|exact S]. }
  destruct t as [[]|]; try (apply K; exact H). discriminate.
Qed.
Lemma from_json_safe E : forall t cur, readable t = true -> shaped t cur = true -> safe_at E (from_json E t cur).
Proof.
  induction t as [b|t IH|t IH|tys IH|nm fs IH|a b IHa IHb|t IH| |t IH|names|k] using jty_ind'; intros cur R S s w H; try discriminate R.
  - assert (K : b <> B_bool -> (let* (x, s0) := get_string s in let* v0 := scalar_from_text E b x in Ok (v0, s0)) = Undef w -> hazard E s w).
    { intros Hb K. apply bind_undef in K as [K|([x s1] & K1 & K)]; [now apply u_string in K|]. apply bind_undef in K as [K|(? & _ & K)]; [|discriminate].
      left. eapply scalar_text_undef; eauto. }
    destruct b; try (apply K; [discriminate|exact H]). cbn [from_json] in H. apply bind_undef in H as [H|([x s1] & _ & H)]; [now apply u_bool in H|discriminate].
  - cbn [from_json] in H. destruct cur as [| | | |l| |]; try discriminate S.
    apply bind_undef in H as [H|(s1 & H1 & H)]; [now apply u_start_array in H|]. apply t_start_array in H1.
    apply bind_undef in H as [H|([l2 s2] & H2 & H)].
    + apply (items_safe E) in H; [eapply hazard_eq; [|exact H]; congruence| | | |unfold fuel_of, left_of; lia].
      * apply IH; [exact R|apply shaped_default].
      * apply from_json_progress.
      * apply from_json_tail.
    + apply bind_undef in H as [H|(s3 & _ & H)]; [now apply u_end_array in H|discriminate].
  - cbn [from_json] in H. apply bind_undef in H as [H|([b s1] & H1 & H)]; [now apply u_null in H|]. destruct b; [discriminate|]. apply t_null in H1.
    apply bind_undef in H as [H|([v2 s2] & _ & H)]; [|discriminate]. apply IH in H; [eapply hazard_eq; [|exact H]; congruence|exact R|apply shaped_default].
  - cbn [from_json] in H. apply bind_undef in H as [H|(s1 & H1 & H)]; [now apply u_start_array in H|]. apply bind_undef in H as [H|([k s2] & H2 & H)]; [now apply u_string in H|].
    apply t_start_array in H1. apply t_string in H2.
    destruct (find_named k _ 0) as [[i f]|] eqn:F; [|discriminate]. apply find_named_In in F. apply in_map_iff in F as (t & Ft & Hin).
    cbn [snd] in Ft. assert (f = from_json E t (jdefault t)) by congruence. subst f.
    cbn [readable] in R. rewrite forallb_forall in R. rewrite Forall_forall in IH.
    apply bind_undef in H as [H|([v3 s3] & _ & H)].
    + apply (IH t Hin) in H; [eapply hazard_eq; [|exact H]; congruence|now apply R|apply shaped_default].
    + apply bind_undef in H as [H|(? & _ & H)]; [now apply u_end_array in H|discriminate].
  - cbn [from_json] in H. destruct cur as [| | | |l| |]; try discriminate S. cbn [shaped] in S. cbn [readable] in R. rewrite forallb_forall in R.
    apply bind_undef in H as [H|(s1 & H1 & H)]; [now apply u_start_object in H|]. apply t_start_object in H1.
    apply bind_undef in H as [H|([l2 s2] & H2 & H)].
    + apply (members_safe E) in H; [eapply hazard_eq; [|exact H]; congruence| |unfold fuel_of, left_of; lia|exact S].
      rewrite Forall_forall in *. intros f Hf cur Sc. apply IH; [exact Hf|now apply R|exact Sc].
    + apply bind_undef in H as [H|(s3 & _ & H)]; [now apply u_end_object in H|discriminate].
  - cbn [from_json] in H. discriminate.
  - cbn [from_json readable shaped] in *. eapply IH; eauto.
Qed.

(** A complete document has no endless loop. *)
Definition no_loop (r : res (val * jstream)) : Prop := r <> Undef "endless loop".
Definition loopless_at E t : Prop := forall cur j rest te, small j -> from_json E t cur (JS (tokens j ++ rest) te) <> Undef "endless loop".
Definition not_loop {A} (r : res A) : Prop := r <> Undef "endless loop".
Lemma scalar_not_loop E b x : b <> B_bool -> scalar_from_text E b x <> Undef "endless loop".
Proof. intros Hb H. apply scalar_text_undef in H; [|exact Hb]. destruct H as [H _]. discriminate. Qed.
Lemma close_loopless E : forall t cur c ts te, c = TkEndArray \/ c = TkEndObject -> from_json E t cur (JS (c :: ts) te) <> Undef "endless loop".
Proof.
  induction t as [b|t IH|t IH|tys IH|nm fs IH|a b IHa IHb|t IH| |t IH|names|k] using jty_ind'; intros cur c ts te C H; try discriminate H.
  - destruct b, C as [->| ->]; discriminate H.
  - cbn [from_json] in H. destruct cur, C as [->| ->]; discriminate H.
  - cbn [from_json] in H. assert (Q : get_null_pred (JS (c :: ts) te) = Ok (false, JS (c :: ts) te)) by (destruct C as [->| ->]; reflexivity).
    rewrite Q in H. cbn [bind] in H. apply bind_undef in H as [H|([v1 s1] & _ & H)]; [|discriminate]. eapply IH; eauto.
  - cbn [from_json] in H. destruct C as [->| ->]; discriminate H.
  - cbn [from_json] in H. destruct cur, C as [->| ->]; discriminate H.
  - cbn [from_json] in H. eapply IH; eauto.
Qed.
Lemma items_loopless E t : loopless_at E t -> forall js fuel acc rest te, Forall small js ->
  read_items (from_json E t (jdefault t)) fuel acc (JS (concat (map tokens js) ++ TkEndArray :: rest) te) <> Undef "endless loop".
Proof.
  intros ST. induction js as [|j js IH]; intros fuel acc rest te Hs H; (destruct fuel as [|fuel]; [discriminate|]).
  - cbn [map concat app] in H. rewrite read_items_nil in H. discriminate.
  - apply Forall_cons_iff in Hs as [S1 S2]. cbn [map concat] in H. rewrite <- app_assoc, read_items_cons in H.
    apply bind_undef in H as [H|([v s1] & H1 & H)]; [now apply ST in H|]. apply run_reads in H1 as [-> R1]; [|exact S1]. now apply IH in H.
Qed.
Lemma members_loopless E fs : Forall (fun f => loopless_at E (snd f)) fs -> forall ms fuel l rest te, Forall (fun m => small (snd m)) ms ->
  read_members (map (fun f => (fst f, from_json E (snd f))) fs) fuel l (JS (member_tokens ms ++ TkEndObject :: rest) te) <> Undef "endless loop".
Proof.
  intros ST. induction ms as [|[k j] ms IH]; intros fuel l rest te Hs H; (destruct fuel as [|fuel]; [discriminate|]).
  - change (member_tokens [] ++ TkEndObject :: rest) with (TkEndObject :: rest) in H. rewrite read_members_nil in H. discriminate.
  - apply Forall_cons_iff in Hs as [S1 S2]. cbn [snd] in S1. unfold member_tokens in H. cbn [map concat fst snd] in H. fold (member_tokens ms) in H.
    cbn [app] in H. rewrite <- app_assoc, read_members_cons in H.
    destruct (find_named k _ 0) as [[i f]|] eqn:F.
    + apply find_named_In in F. apply in_map_iff in F as ([k' t] & Ft & F). cbn [fst snd] in Ft. assert (f = from_json E t) by congruence. subst f.
      destruct (nthz l i) as [cur|]; [|discriminate].
      rewrite Forall_forall in ST. specialize (ST _ F). cbn [snd] in ST.
      apply bind_undef in H as [H|([v s1] & H1 & H)]; [now apply ST in H|]. apply run_reads in H1 as [-> R1]; [|exact S1]. now apply IH in H.
    + unfold from_json_skip_value in H. cbn [toks jtail] in H. rewrite skip_tokens in H by (unfold small in S1; lia).
      cbn [Z.eqb bind] in H. now apply IH in H.
Qed.
Theorem from_json_loopless E : forall t, loopless_at E t.
Proof.
  induction t as [b|t IH|t IH|tys IH|nm fs IH|a b IHa IHb|t IH| |t IH|names|k] using jty_ind'; intros cur j rest te Hs H; try discriminate H.
  - assert (K : b <> B_bool -> (let* (x, s0) := get_string (JS (tokens j ++ rest) te) in let* v0 := scalar_from_text E b x in Ok (v0, s0)) <> Undef "endless loop").
    { intros Hb K. apply bind_undef in K as [K|([x s1] & K1 & K)]; [now apply u_string in K|]. apply bind_undef in K as [K|(? & _ & K)]; [|discriminate].
      now apply scalar_not_loop in K. }
    destruct b; try (apply K; [discriminate|exact H]). cbn [from_json] in H. apply bind_undef in H as [H|([x s1] & _ & H)]; [now apply u_bool in H|discriminate].
  - cbn [from_json] in H. destruct cur as [| | | |l| |]; try discriminate H. destruct j as [| | | |js|]; try discriminate H.
    cbn [tokens app] in H. rewrite start_array_run in H. cbn [bind] in H.
    rewrite <- app_assoc in H. change ([TkEndArray] ++ rest) with (TkEndArray :: rest) in H.
    apply bind_undef in H as [H|([l2 s2] & _ & H)].
    + apply (items_loopless E t IH) in H; [exact H|]. apply Forall_forall. intros j Hj. apply small_item in Hj. unfold small, tsize in *. cbn [tokens List.length] in Hs. rewrite app_length in Hs. lia.
    + apply bind_undef in H as [H|(s3 & _ & H)]; [now apply u_end_array in H|discriminate].
  - cbn [from_json] in H. rewrite null_doc in H. destruct j; try discriminate H; cbn [bind] in H; (apply bind_undef in H as [H|([v1 s1] & H1 & H)]; [now apply IH in H|discriminate]).
  - cbn [from_json] in H. destruct j as [| | | |js|]; try discriminate H.
    cbn [tokens app] in H. rewrite start_array_run in H. cbn [bind] in H.
    rewrite <- app_assoc in H. destruct js as [|jk js]; [discriminate H|]. cbn [map concat] in H. rewrite <- app_assoc in H.
    apply bind_undef in H as [H|([k s1] & H1 & H)]; [now apply u_string in H|]. apply string_doc in H1 as [Hk ->].
    destruct (find_named k _ 0) as [[i f]|] eqn:F; [|discriminate]. apply find_named_In in F. apply in_map_iff in F as (t & Ft & F).
    cbn [snd] in Ft. assert (f = from_json E t (jdefault t)) by congruence. subst f. rewrite Forall_forall in IH. specialize (IH _ F).
    apply bind_undef in H as [H|([v2 s2] & _ & H)].
    + destruct js as [|j js]; [cbn [map concat app] in H; eapply close_loopless; [|exact H]; auto|].
      cbn [map concat] in H. rewrite <- app_assoc in H. apply IH in H; [exact H|]. unfold small, tsize in *. cbn [tokens map concat List.length] in Hs. rewrite !app_length in Hs. lia.
    + apply bind_undef in H as [H|(s3 & _ & H)]; [now apply u_end_array in H|discriminate].
  - cbn [from_json] in H. destruct cur as [| | | |l| |]; try discriminate H. destruct j as [| | | | |ms]; try discriminate H.
    change (tokens (JObj ms)) with (TkStartObject :: member_tokens ms ++ [TkEndObject]) in H. cbn [app] in H. rewrite start_object_run in H. cbn [bind] in H.
    rewrite <- app_assoc in H. change ([TkEndObject] ++ rest) with (TkEndObject :: rest) in H.
    apply bind_undef in H as [H|([l2 s2] & _ & H)].
    + apply (members_loopless E fs IH) in H; [exact H|].
      apply Forall_forall. intros [k j] Hj. apply small_member in Hj. unfold small, tsize in *. change (tokens (JObj ms)) with (TkStartObject :: member_tokens ms ++ [TkEndObject]) in Hs.
      cbn [List.length snd] in *. rewrite app_length in Hs. lia.
    + apply bind_undef in H as [H|(s3 & _ & H)]; [now apply u_end_object in H|discriminate].
  - cbn [from_json] in H. now apply IH in H.
Qed.
