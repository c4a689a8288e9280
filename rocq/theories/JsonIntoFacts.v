(** * JsonIntoFacts: lemmas for C58 *)
From Verif Require Import Base Stream TypedBin TypedSpec TypedBinFacts DecodeInto DecodeIntoSpec Prop_DecodeInto Hex Prop_Hex Decimal Name NameFacts Asset AssetFacts Time TimeText Keys KeysFacts
  JsonInt JsonIntFacts Json JsonSpec Abi AbiScalar AbiScalarFacts AbiJsonText TypedJson TypedJsonSpec TypedJsonFacts TypedJsonRead TypedJsonText TypedJsonBack JsonInto JsonIntoSpec JsonIntoScalar.

(** ** The outcome *)
Definition drop (p : jinto) : res (val * jstream) :=
  match p with (v, Ok s) => Ok (v, s) | (_, Err e) => Err e | (_, Undef w) => Undef w end.
Definition drops (p : list val * res jstream) : res (list val * jstream) :=
  match p with (l, Ok s) => Ok (l, s) | (_, Err e) => Err e | (_, Undef w) => Undef w end.
Lemma keeping_drop {A} old (r : res A) k : drop (keeping old r k) = let* a := r in drop (k a).
Proof. now destruct r. Qed.
Lemma items_drop f g : (forall s, drop (f s) = g s) -> forall fuel l s, drops (items_into f fuel l s) = read_items g fuel l s.
Proof.
  intros H. induction fuel as [|fuel IH]; intros l s; cbn [items_into read_items]; [reflexivity|].
  destruct (peek_token s) as [t|e|w]; cbn [bind drops]; [|reflexivity|reflexivity].
  assert (K : drops match f s with (x, Ok s) => items_into f fuel (l ++ [x]) s | (x, r) => (l ++ [x], r) end =
    (let* (v, s0) := g s in read_items g fuel (l ++ [v]) s0)).
  { rewrite <- H. destruct (f s) as [x [s'|e|w]]; cbn [drop bind drops]; auto. }
  destruct t as [[]|]; try exact K. reflexivity.
Qed.
Lemma find_drop (ps : list (bytes * (val -> jstream -> jinto))) (qs : list (bytes * (val -> jstream -> res (val * jstream)))) :
  Forall2 (fun p q => fst p = fst q /\ forall old s, drop (snd p old s) = snd q old s) ps qs ->
  forall k i, match find_named k ps i, find_named k qs i with
              | Some (j, f), Some (j', g) => j = j' /\ forall old s, drop (f old s) = g old s
              | None, None => True
              | _, _ => False
              end.
Proof.
  intros F k. induction F as [|[n f] [m g] ps qs [H1 H2] _ IH]; intros i; cbn [find_named]; [exact Logic.I|]. cbn [fst snd] in *. subst m.
  destruct (beq k n); [auto|apply IH].
Qed.
Lemma members_drop ps qs : Forall2 (fun p q => fst p = fst q /\ forall old s, drop (snd p old s) = snd q old s) ps qs ->
  forall fuel l s, drops (members_into ps fuel l s) = read_members qs fuel l s.
Proof.
  intros F. induction fuel as [|fuel IH]; intros l s; cbn [members_into read_members]; [reflexivity|].
  destruct (peek_token s) as [t|e|w]; cbn [bind drops]; [|reflexivity|reflexivity].
  match goal with |- drops (match t with Some _ => _ | None => ?a end) = match t with Some _ => _ | None => ?b end => assert (K : drops a = b) end.
  { destruct (get_key s) as [[k s1]|e|w]; cbn [bind drops]; [|reflexivity|reflexivity].
    pose proof (find_drop ps qs F k 0) as Q. destruct (find_named k ps 0) as [[i f]|], (find_named k qs 0) as [[i' g]|]; try (now destruct Q).
    - destruct Q as [<- Q]. destruct (nthz l i) as [cur|]; [|reflexivity]. rewrite <- Q. destruct (f cur s1) as [v [s2|e|w]]; cbn [drop bind drops]; auto.
    - destruct (from_json_skip_value s1) as [s2|e|w]; cbn [bind drops]; auto. }
  destruct t as [[]|]; try exact K. reflexivity.
Qed.
Lemma closing_drop close p : drop (closing close p) = let* (l, s) := drops p in let* s := close s in Ok (VList l, s).
Proof. destruct p as [l [s|e|w]]; cbn [closing drops bind]; [|reflexivity|reflexivity]. now destruct (close s). Qed.
Lemma scalar_drop E pf b old p : drop (scalar_into E pf b old p) = let (x, s) := p in let* v := scalar_from_text E b x in Ok (v, s).
Proof. destruct p as [x s]. unfold scalar_into. now destruct (scalar_from_text E b x). Qed.
Lemma from_json_drop E pf : forall t old s, drop (from_json_into E pf t old s) = from_json E t old s.
Proof.
  induction t as [b|t IH|t IH|tys IH|nm fs IH|a b IHa IHb|t IH| |t IH|names|k] using jty_ind'; intros old s; try reflexivity.
  - assert (K : drop (keeping old (get_string s) (scalar_into E pf b old)) = (let* (x, s) := get_string s in let* v := scalar_from_text E b x in Ok (v, s))).
    { rewrite keeping_drop. destruct (get_string s) as [p|e|w]; cbn [bind]; auto. apply scalar_drop. }
    destruct b; try exact K. cbn [from_json_into from_json]. rewrite keeping_drop. now destruct (get_bool s) as [[x s1]|e|w].
  - cbn [from_json_into from_json]. destruct old as [| | | |l| |]; try reflexivity. rewrite keeping_drop. destruct (get_start_array s) as [s1|e|w]; cbn [bind]; auto.
    rewrite closing_drop. rewrite (items_drop _ (from_json E t (jdefault t))); [reflexivity|]. auto.
  - cbn [from_json_into from_json]. rewrite keeping_drop. destruct (get_null_pred s) as [[b s1]|e|w]; cbn [bind fst snd]; auto. destruct b; [reflexivity|].
    rewrite <- IH. now destruct (from_json_into E pf t (jdefault t) s1) as [x [s2|e|w]].
  - cbn [from_json_into from_json]. rewrite keeping_drop. destruct (get_start_array s) as [s1|e|w]; cbn [bind]; auto.
    rewrite keeping_drop. destruct (get_string s1) as [[k s2]|e|w]; cbn [bind fst snd]; auto.
    assert (Q : match find_named k (map (fun t' => (type_name t', from_json_into E pf t' (jdefault t'))) tys) 0,
                      find_named k (map (fun t' => (type_name t', from_json E t' (jdefault t'))) tys) 0 with
                | Some (j, f), Some (j', g) => j = j' /\ forall s, drop (f s) = g s | None, None => True | _, _ => False end).
    { generalize 0. induction IH as [|t tys H _ IHt]; intros i; cbn [map find_named]; [exact Logic.I|]. destruct (beq k (type_name t)); [auto|apply IHt]. }
    destruct (find_named k (map (fun t' => (type_name t', from_json_into E pf t' (jdefault t'))) tys) 0) as [[i f]|],
             (find_named k (map (fun t' => (type_name t', from_json E t' (jdefault t'))) tys) 0) as [[i' g]|]; try (now destruct Q).
    destruct Q as [<- Q]. rewrite <- Q. destruct (f s2) as [x [s3|e|w]]; cbn [drop bind]; auto.
  - cbn [from_json_into from_json]. destruct old as [| | | |l| |]; try reflexivity. rewrite keeping_drop. destruct (get_start_object s) as [s1|e|w]; cbn [bind]; auto.
    rewrite closing_drop. rewrite (members_drop _ (map (fun f => (fst f, from_json E (snd f))) fs)); [reflexivity|].
    induction IH as [|[k t] fs H _ IHf]; cbn [map]; constructor; auto.
  - cbn [from_json_into from_json]. apply IH.
Qed.

(** ** What is left of the stream *)
Definition suffix (s' s : jstream) : Prop := exists pre, toks s = pre ++ toks s'.
Lemma suffix_refl s : suffix s s. Proof. now exists []. Qed.
Lemma suffix_trans a b c : suffix a b -> suffix b c -> suffix a c.
Proof. intros [p Hp] [q Hq]. exists (q ++ p). rewrite Hq, Hp. now rewrite app_assoc. Qed.
Definition eats {A} (f : jstream -> res (A * jstream)) : Prop := forall s v s', f s = Ok (v, s') -> suffix s' s.
Definition eats' (f : jstream -> res jstream) : Prop := forall s s', f s = Ok s' -> suffix s' s.
Ltac et := intros [[|k ts] [e|]] v s' H; unfold get_string, get_bool, get_key, get_null_pred, peek_token in H; cbn in H; try discriminate H;
  try (destruct k; try discriminate H); injection H as <- <-; solve [now exists [] | eexists [_]; reflexivity].
Ltac et' := intros [[|k ts] [e|]] s' H; cbn in H; try discriminate H; try (destruct k; try discriminate H); injection H as <-; solve [now exists [] | eexists [_]; reflexivity].
Lemma e_string : eats get_string. Proof. et. Qed.
Lemma e_bool : eats get_bool. Proof. et. Qed.
Lemma e_key : eats get_key. Proof. et. Qed.
Lemma e_null : eats get_null_pred. Proof. et. Qed.
Lemma e_start_array : eats' get_start_array. Proof. et'. Qed.
Lemma e_end_array : eats' get_end_array. Proof. et'. Qed.
Lemma e_start_object : eats' get_start_object. Proof. et'. Qed.
Lemma e_end_object : eats' get_end_object. Proof. et'. Qed.
Lemma e_skip : eats' from_json_skip_value.
Proof.
  intros [ts te] s'. unfold from_json_skip_value. cbn [toks jtail]. generalize 0 as d.
  induction ts as [|t ts IH]; intros d H; cbn [skip_value] in H.
  - destruct te; [discriminate|]. destruct (_ =? 0) in H; [|discriminate]. assert (s' = JS [] None) by congruence. subst. now exists [].
  - cbv zeta in H. destruct (_ =? 0) in H.
    + assert (s' = JS ts te) by congruence. subst. now exists [t].
    + apply IH in H as [p Hp]. exists (t :: p). cbn [toks app] in *. now f_equal.
Qed.
Lemma e_items f : eats f -> forall fuel acc, eats (read_items f fuel acc).
Proof.
  intros F. induction fuel as [|fuel IH]; intros acc s l s' H; cbn [read_items] in H; [discriminate|].
  apply bind_Ok in H as (t & _ & H).
  assert (K : (let* (v, s0) := f s in read_items f fuel (acc ++ [v]) s0) = Ok (l, s') -> suffix s' s).
  { intros K. apply bind_Ok in K as ([v s1] & K1 & K). apply F in K1. apply IH in K. eapply suffix_trans; eauto. }
  destruct t as [[]|]; try (apply K; exact H). assert (s' = s) by congruence. subst. apply suffix_refl.
Qed.
Lemma e_members ps : Forall (fun p => forall cur, eats (snd p cur)) ps -> forall fuel l, eats (read_members ps fuel l).
Proof.
  intros F. induction fuel as [|fuel IH]; intros l s l' s' H; cbn [read_members] in H; [discriminate|].
  apply bind_Ok in H as (t & _ & H).
  match type of H with match t with Some _ => _ | None => ?body end = _ => assert (K : body = Ok (l', s') -> suffix s' s) end.
  { clear H. intros H. apply bind_Ok in H as ([k s1] & H1 & H). apply e_key in H1. eapply suffix_trans; [|exact H1].
    destruct (find_named k ps 0) as [[i f]|] eqn:Fn.
    - destruct (nthz l i) as [cur|]; [|discriminate]. apply bind_Ok in H as ([v s2] & H2 & H). apply find_named_In in Fn. rewrite Forall_forall in F.
      apply (F _ Fn) in H2. apply IH in H. eapply suffix_trans; eauto.
    - apply bind_Ok in H as (s2 & H2 & H). apply e_skip in H2. apply IH in H. eapply suffix_trans; eauto. }
  destruct t as [[]|]; try (apply K; exact H). assert (s' = s) by congruence. subst. apply suffix_refl.
Qed.
Lemma from_json_eats E : forall t cur, eats (from_json E t cur).
Proof.
  induction t as [b|t IH|t IH|tys IH|nm fs IH|a b IHa IHb|t IH| |t IH|names|k] using jty_ind'; intros cur s v s' H; try discriminate H.
  - assert (K : (let* (x, s0) := get_string s in let* v0 := scalar_from_text E b x in Ok (v0, s0)) = Ok (v, s') -> suffix s' s).
    { intros K. apply bind_Ok in K as ([x s1] & K1 & K). apply bind_Ok in K as (v1 & _ & K). assert (s' = s1) by congruence. subst. eapply e_string; eauto. }
    destruct b; try (apply K; exact H). cbn [from_json] in H. apply bind_Ok in H as ([x s1] & H1 & H). assert (s' = s1) by congruence. subst. eapply e_bool; eauto.
  - cbn [from_json] in H. destruct cur as [| | | |l| |]; try discriminate.
    apply bind_Ok in H as (s1 & H1 & H). apply bind_Ok in H as ([l2 s2] & H2 & H). apply bind_Ok in H as (s3 & H3 & H). assert (s' = s3) by congruence. subst.
    apply e_start_array in H1. apply e_end_array in H3. apply e_items in H2; [|apply IH]. eauto using suffix_trans.
  - cbn [from_json] in H. apply bind_Ok in H as ([b s1] & H1 & H). apply e_null in H1. destruct b.
    + assert (s' = s1) by congruence. now subst.
    + apply bind_Ok in H as ([x s2] & H2 & H). assert (s' = s2) by congruence. subst. apply IH in H2. eauto using suffix_trans.
  - cbn [from_json] in H. apply bind_Ok in H as (s1 & H1 & H). apply bind_Ok in H as ([k s2] & H2 & H). apply e_start_array in H1. apply e_string in H2.
    destruct (find_named k _ 0) as [[i f]|] eqn:F; [|discriminate]. apply find_named_In in F. apply in_map_iff in F as (t & Ft & Hin).
    cbn [snd] in Ft. assert (f = from_json E t (jdefault t)) by congruence. subst f. rewrite Forall_forall in IH.
    apply bind_Ok in H as ([x s3] & H3 & H). apply bind_Ok in H as (s4 & H4 & H). assert (s' = s4) by congruence. subst. apply (IH t Hin) in H3. apply e_end_array in H4.
    eauto using suffix_trans.
  - cbn [from_json] in H. destruct cur as [| | | |l| |]; try discriminate.
    apply bind_Ok in H as (s1 & H1 & H). apply bind_Ok in H as ([l2 s2] & H2 & H). apply bind_Ok in H as (s3 & H3 & H). assert (s' = s3) by congruence. subst.
    apply e_start_object in H1. apply e_end_object in H3. apply e_members in H2; [eauto using suffix_trans|]. apply Forall_map. eapply Forall_impl; [|exact IH]. cbv beta. cbn [snd]. auto.
  - cbn [from_json] in H. eapply IH; eauto.
Qed.
Lemma into_eats E pf t old s v s' : from_json_into E pf t old s = (v, Ok s') -> suffix s' s.
Proof. intros H. eapply (from_json_eats E t old s v). rewrite <- (from_json_drop E pf). now rewrite H. Qed.

(** ** Induction over the loops *)
Definition failed {A} (r : res A) : Prop := match r with Ok _ => False | _ => True end.
Lemma items_ind (f : jstream -> jinto) (P : list val -> jstream -> Prop) (Q : list val -> Prop) :
  (forall l s, P l s -> Q l) ->
  (forall l s x s', P l s -> f s = (x, Ok s') -> P (l ++ [x]) s') ->
  (forall l s x r, P l s -> f s = (x, r) -> failed r -> Q (l ++ [x])) ->
  forall fuel l s, P l s -> Q (fst (items_into f fuel l s)).
Proof.
  intros H1 H2 H3. induction fuel as [|fuel IH]; intros l s H; cbn [items_into]; [eapply H1; eauto|].
  destruct (peek_token s) as [t|e|w]; [|eapply H1; eauto|eapply H1; eauto].
  assert (K : Q (fst match f s with (x, Ok s) => items_into f fuel (l ++ [x]) s | (x, r) => (l ++ [x], r) end)).
  { destruct (f s) as [x [s'|e|w]] eqn:F; [eapply IH, H2; eauto| |]; cbn [fst]; eapply H3; eauto; exact Logic.I. }
  destruct t as [[]|]; try exact K. eapply H1; eauto.
Qed.
Lemma members_ind (ps : list (bytes * (val -> jstream -> jinto))) (P : list val -> jstream -> Prop) (Q : list val -> Prop) :
  (forall l s, P l s -> Q l) ->
  (forall l s k s1 i f cur v s2, P l s -> get_key s = Ok (k, s1) -> find_named k ps 0 = Some (i, f) -> nthz l i = Some cur ->
     f cur s1 = (v, Ok s2) -> P (set_nth l (Z.to_nat i) v) s2) ->
  (forall l s k s1 i f cur v r, P l s -> get_key s = Ok (k, s1) -> find_named k ps 0 = Some (i, f) -> nthz l i = Some cur ->
     f cur s1 = (v, r) -> failed r -> Q (set_nth l (Z.to_nat i) v)) ->
  (forall l s k s1 s2, P l s -> get_key s = Ok (k, s1) -> find_named k ps 0 = None -> from_json_skip_value s1 = Ok s2 -> P l s2) ->
  forall fuel l s, P l s -> Q (fst (members_into ps fuel l s)).
Proof.
  intros H1 H2 H3 H4. induction fuel as [|fuel IH]; intros l s H; cbn [members_into]; [eapply H1; eauto|].
  destruct (peek_token s) as [t|e|w]; [|eapply H1; eauto|eapply H1; eauto].
  match goal with |- Q (fst (match t with Some _ => _ | None => ?a end)) => assert (K : Q (fst a)) end.
  { destruct (get_key s) as [[k s1]|e|w] eqn:Gk; [|eapply H1; eauto|eapply H1; eauto].
    destruct (find_named k ps 0) as [[i f]|] eqn:Fn.
    - destruct (nthz l i) as [cur|] eqn:N; [|eapply H1; eauto].
      destruct (f cur s1) as [v [s2|e|w]] eqn:F; [eapply IH, H2; eauto| |]; cbn [fst]; eapply H3; eauto; exact Logic.I.
    - destruct (from_json_skip_value s1) as [s2|e|w] eqn:Sk; [eapply IH, H4; eauto|eapply H1; eauto|eapply H1; eauto]. }
  destruct t as [[]|]; try exact K. eapply H1; eauto.
Qed.
(** Two runs. *)
Definition related (R : nat -> val -> val -> Prop) (l l' : list val) : Prop :=
  forall n, match nth_error l n, nth_error l' n with Some a, Some b => R n a b | None, None => True | _, _ => False end.
Lemma set_nth_same : forall l n v x, nth_error l n = Some x -> nth_error (set_nth l n v) n = Some v.
Proof. induction l as [|y l IH]; intros [|n] v x H; cbn in *; try discriminate; eauto. Qed.
Lemma set_nth_other : forall l n m v, n <> m -> nth_error (set_nth l n v) m = nth_error l m.
Proof. induction l as [|y l IH]; intros [|n] [|m] v H; cbn; auto; try congruence. Qed.
Lemma related_set R l l' n a b : related R l l' -> R n a b -> related R (set_nth l n a) (set_nth l' n b).
Proof.
  intros H Hab m. specialize (H m). destruct (Nat.eq_dec n m) as [<-|D].
  - destruct (nth_error l n) as [x|] eqn:A, (nth_error l' n) as [y|] eqn:B; try (now destruct H).
    + now rewrite (set_nth_same _ _ _ _ A), (set_nth_same _ _ _ _ B).
    + assert (X : forall l v, nth_error l n = None -> nth_error (set_nth l n v) n = None).
      { clear. induction n as [|n IH]; intros [|x l] v H; cbn in *; try discriminate; auto. }
      now rewrite (X _ _ A), (X _ _ B).
  - now rewrite !set_nth_other.
Qed.
Lemma members_rel (ps : list (bytes * (val -> jstream -> jinto))) (R : nat -> val -> val -> Prop) : (forall k i f a b s, find_named k ps 0 = Some (i, f) -> R (Z.to_nat i) a b ->
    snd (f a s) = snd (f b s) /\ R (Z.to_nat i) (fst (f a s)) (fst (f b s))) ->
  forall fuel l l' s, related R l l' -> snd (members_into ps fuel l s) = snd (members_into ps fuel l' s) /\
    related R (fst (members_into ps fuel l s)) (fst (members_into ps fuel l' s)).
Proof.
  intros H. induction fuel as [|fuel IH]; intros l l' s Rl; cbn [members_into]; [auto|].
  destruct (peek_token s) as [t|e|w]; [|auto|auto].
  match goal with |- snd (match t with Some _ => _ | None => ?a end) = snd (match t with Some _ => _ | None => ?b end) /\ _ =>
    assert (K : snd a = snd b /\ related R (fst a) (fst b)) end.
  { destruct (get_key s) as [[k s1]|e|w]; [|auto|auto].
    destruct (find_named k ps 0) as [[i f]|] eqn:Fn.
    - assert (Hi : exists n, i = Z.of_nat n) by (apply find_named_first in Fn as (n & Hi & _); exists n; lia).
      destruct Hi as [n ->]. rewrite !nthz_nth. pose proof (Rl n) as Rn. destruct (nth_error l n) as [a|], (nth_error l' n) as [b|]; try (now destruct Rn); [].
      specialize (H _ _ _ a b s1 Fn). rewrite !Nat2Z.id in *. destruct (H Rn) as [H1 H2].
      destruct (f a s1) as [v [s2|e|w]], (f b s1) as [v' [s2'|e'|w']]; cbn [fst snd] in *; try discriminate; try (split; [exact H1|now apply related_set]).
      assert (s2' = s2) by congruence. subst. apply IH. now apply related_set.
    - destruct (from_json_skip_value s1) as [s2|e|w]; auto. }
  destruct t as [[]|]; try exact K. auto.
Qed.
Lemma items_app f : forall fuel l m s, items_into f fuel (l ++ m) s = (l ++ fst (items_into f fuel m s), snd (items_into f fuel m s)).
Proof.
  induction fuel as [|fuel IH]; intros l m s; cbn [items_into]; [reflexivity|].
  destruct (peek_token s) as [t|e|w]; [|reflexivity|reflexivity].
  match goal with |- match t with Some _ => _ | None => ?a end = (l ++ fst (match t with Some _ => _ | None => ?b end), _) =>
    assert (K : a = (l ++ fst b, snd b)) end.
  { destruct (f s) as [x [s'|e|w]]; cbn [fst snd]; rewrite <- app_assoc; auto. }
  destruct t as [[]|]; try exact K. reflexivity.
Qed.

(** ** Shapes, outcomes *)
Lemma first_field {B} (fs : list (bytes * jty)) (g : jty -> B) k i f :
  find_named k (map (fun f => (fst f, g (snd f))) fs) 0 = Some (i, f) -> exists n t, i = Z.of_nat n /\ nth_error fs n = Some (k, t) /\ f = g t.
Proof.
  intros Fn. apply find_named_first in Fn as (n & Hi & Fn). rewrite Z.add_0_l in Hi. apply (first_named_map k g) in Fn as (ty & -> & Fn).
  destruct Fn as [Fn _]. exists n, ty. auto.
Qed.
Lemma shaped_fields fs l : forallb2 (map (fun f : bytes * jty => shaped (snd f)) fs) l = true <->
  List.length l = List.length fs /\ forall n f x, nth_error fs n = Some f -> nth_error l n = Some x -> shaped (snd f) x = true.
Proof.
  revert l. induction fs as [|f fs IH]; intros [|x l]; cbn [map forallb2 List.length].
  - split; [|reflexivity]. intros _. split; [reflexivity|]. intros [|n]; discriminate.
  - split; [discriminate|]. intros [H _]. discriminate.
  - split; [discriminate|]. intros [H _]. discriminate.
  - rewrite andb_true_iff, IH. split.
    + intros (H1 & H2 & H3). split; [congruence|]. intros [|n] g y Hf Hx; cbn in *; [congruence|eauto].
    + intros (H1 & H2). split; [apply (H2 0%nat f x); reflexivity|]. split; [congruence|]. intros n g y Hf Hx. apply (H2 (S n) g y); auto.
Qed.
Lemma set_nth_length l n v : List.length (set_nth l n v) = List.length l.
Proof. revert n. induction l as [|x l IH]; intros [|n]; cbn; auto. Qed.
Section Into.
  Context (E : float_lib) (pf : nat -> bytes -> Z).
  Notation into := (from_json_into E pf).
  Lemma into_vec t l s : into (JVec t) (VList l) s =
    (VList (l ++ match fst (into (JVec t) (VList []) s) with VList l' => l' | _ => [] end), snd (into (JVec t) (VList []) s)) /\
    exists l', fst (into (JVec t) (VList []) s) = VList l'.
  Proof.
    cbn [from_json_into]. destruct (get_start_array s) as [s1|e|w]; cbn [keeping fst snd]; rewrite ?app_nil_r; [|eauto|eauto].
    pose proof (items_app (into t (jdefault t)) (fuel_of s1) l [] s1) as A. rewrite app_nil_r in A. rewrite A.
    destruct (items_into (into t (jdefault t)) (fuel_of s1) [] s1) as [l' [s2|e|w]]; cbn [fst snd closing]; eauto.
  Qed.
  Lemma struct_list nm fs old s : snd (into (JStruct nm fs) old s) = Undef "ill-typed value" \/ (exists l', fst (into (JStruct nm fs) old s) = VList l').
  Proof.
    cbn [from_json_into]. destruct old as [| | | |l| |]; try (left; reflexivity). right. destruct (get_start_object s) as [s1|e|w]; cbn [keeping fst]; eauto.
    destruct (members_into _ _ l s1) as [l' [s2|e|w]]; cbn [closing fst]; eauto.
  Qed.
  Definition kept_shape (t : jty) : Prop := forall a s, shaped t a = true -> shaped t (fst (into t a s)) = true.
  Lemma into_shaped : forall t, kept_shape t.
  Proof.
    induction t as [b|t IH|t IH|tys IH|nm fs IH|a b IHa IHb|t IH| |t IH|names|k] using jty_ind'; intros x s H; try reflexivity.
    - destruct x as [| | | |l| |]; try discriminate. destruct (into_vec t l s) as [-> _]. reflexivity.
    - destruct x as [| | | |l| |]; try discriminate. cbn [from_json_into]. destruct (get_start_object s) as [s1|e|w]; cbn [keeping]; [|exact H|exact H].
      assert (Q : forallb2 (map (fun f : bytes * jty => shaped (snd f)) fs) (fst (members_into (map (fun f => (fst f, into (snd f))) fs) (fuel_of s1) l s1)) = true).
      { apply (members_ind _ (fun l _ => forallb2 (map (fun f : bytes * jty => shaped (snd f)) fs) l = true)); auto.
        - intros l0 s0 k s2 i f cur v s3 Hl _ Fn N F. apply first_field in Fn as (n & t & -> & Nf & ->). rewrite Nat2Z.id. rewrite nthz_nth in N.
          rewrite Forall_forall in IH. apply nth_error_In in Nf as Hin. specialize (IH _ Hin). cbn [snd] in IH.
          pose proof (map_nth_error (fun f : bytes * jty => shaped (snd f)) _ _ Nf) as Q. cbn [snd] in Q.
          eapply shaped_set; [exact Hl|exact Q|]. specialize (IH cur s2). rewrite F in IH. apply IH. destruct (shaped_nth _ _ _ _ Hl Q) as (y & Hy & Sy). congruence.
        - intros l0 s0 k s2 i f cur v r Hl _ Fn N F _. apply first_field in Fn as (n & t & -> & Nf & ->). rewrite Nat2Z.id. rewrite nthz_nth in N.
          rewrite Forall_forall in IH. apply nth_error_In in Nf as Hin. specialize (IH _ Hin). cbn [snd] in IH.
          pose proof (map_nth_error (fun f : bytes * jty => shaped (snd f)) _ _ Nf) as Q. cbn [snd] in Q.
          eapply shaped_set; [exact Hl|exact Q|]. specialize (IH cur s2). rewrite F in IH. apply IH. destruct (shaped_nth _ _ _ _ Hl Q) as (y & Hy & Sy). congruence. }
      destruct (members_into _ _ l s1) as [l' [s2|e|w]]; exact Q.
    - cbn [from_json_into shaped] in *. now apply IH.
  Qed.
  Definition same_outcome (t : jty) : Prop := forall a b s, shaped t a = true -> shaped t b = true -> snd (into t a s) = snd (into t b s).
  Lemma into_same : forall t, same_outcome t.
  Proof.
    induction t as [b|t IH|t IH|tys IH|nm fs IH|a b IHa IHb|t IH| |t IH|names|k] using jty_ind'; intros x y s Hx Hy; try reflexivity.
    - assert (K : snd (keeping x (get_string s) (scalar_into E pf b x)) = snd (keeping y (get_string s) (scalar_into E pf b y))).
      { destruct (get_string s) as [[z s1]|e|w]; cbn [keeping scalar_into]; try reflexivity. now destruct (scalar_from_text E b z). }
      destruct b; try exact K. cbn [from_json_into]. now destruct (get_bool s) as [[z s1]|e|w].
    - destruct x as [| | | |l| |], y as [| | | |l'| |]; try discriminate. rewrite (proj1 (into_vec t l s)), (proj1 (into_vec t l' s)). reflexivity.
    - cbn [from_json_into]. destruct (get_null_pred s) as [[[|] s1]|e|w]; cbn [keeping fst snd]; reflexivity.
    - cbn [from_json_into]. destruct (get_start_array s) as [s1|e|w]; cbn [keeping]; try reflexivity.
      destruct (get_string s1) as [[k s2]|e|w]; cbn [keeping fst snd]; try reflexivity. destruct (find_named k _ 0) as [[i f]|]; reflexivity.
    - destruct x as [| | | |l| |], y as [| | | |l'| |]; try discriminate. cbn [from_json_into]. destruct (get_start_object s) as [s1|e|w]; cbn [keeping]; try reflexivity.
      cbn [shaped] in Hx, Hy. apply shaped_fields in Hx as [Lx Sx], Hy as [Ly Sy].
      pose proof (members_rel (map (fun f => (fst f, into (snd f))) fs)
        (fun n a b => forall f, nth_error fs n = Some f -> shaped (snd f) a = true /\ shaped (snd f) b = true)) as M.
      destruct (M ltac:(
        intros k i f a b s0 Fn R; apply first_field in Fn as (n & t & -> & Nf & ->); rewrite Nat2Z.id in *;
        destruct (R _ Nf) as [Ra Rb]; cbn [snd] in *; rewrite Forall_forall in IH; apply nth_error_In in Nf as Hin; specialize (IH _ Hin); cbn [snd] in IH;
        split; [apply IH; auto|]; intros g Hg; rewrite Nf in Hg; injection Hg as <-; cbn [snd]; split; apply into_shaped; auto) (fuel_of s1) l l' s1) as [Q _].
      { intros n. destruct (nth_error l n) as [a|] eqn:A, (nth_error l' n) as [b|] eqn:B; auto.
        - intros f Hf. split; [eapply Sx; eauto|eapply Sy; eauto].
        - apply nth_error_None in B. assert (nth_error l n <> None) by congruence. apply nth_error_Some in H. lia.
        - apply nth_error_None in A. assert (nth_error l' n <> None) by congruence. apply nth_error_Some in H. lia. }
      destruct (members_into _ _ l s1) as [l1 [s2|e|w]], (members_into _ _ l' s1) as [l1' [s2'|e'|w']]; cbn [snd closing] in *; congruence.
    - cbn [from_json_into shaped] in *. now apply IH.
  Qed.
End Into.

(** ** Objects *)
Lemma default_object : forall t, unrecursive t = true -> instantiable (erase t) = true -> object key_env (erase t) (jdefault t).
Proof.
  unfold jdefault. induction t as [b|t IH|t IH|tys IH|nm fs IH|a b IHa IHb|t IH| |t IH|names|k] using jty_ind'; intros R Ti; cbn [erase default_of] in *; try discriminate R.
  - apply (C54_values_are_objects key_env 0). destruct b; vm_compute; reflexivity.
  - now apply OVec.
  - apply ONone.
  - destruct tys as [|t tys]; [discriminate Ti|]. cbn [map] in *. apply Forall_cons_iff in IH as [H _]. apply (OVariant _ _ 0%nat (erase t)); [reflexivity|].
    cbn [instantiable forallb unrecursive] in *. apply andb_prop in R as [R _]. apply andb_prop in Ti as [_ Ti]. apply andb_prop in Ti as [Ti _]. auto.
  - apply OWrap. apply OTuple. cbn [instantiable ty_ok] in Ti. apply andb_prop in Ti as [_ Ti]. apply andb_prop in Ti as [_ Ti].
    cbn [unrecursive] in R. induction IH as [|f fs H _ IHf]; cbn [map]; constructor.
    + cbn [map forallb] in *. apply andb_prop in R as [R _]. apply andb_prop in Ti as [Ti _]. auto.
    + apply IHf; cbn [map forallb] in *; apply andb_prop in R as [_ R]; apply andb_prop in Ti as [_ Ti]; auto.
  - cbn [unrecursive] in R. apply andb_prop in R as [Ra Rb]. cbn [instantiable forallb] in Ti. apply andb_prop in Ti as [_ Ti]. apply andb_prop in Ti as [Ta Ti]. apply andb_prop in Ti as [Tb _].
    apply OTuple. cbn [map]. constructor; [auto|]. constructor; auto.
  - apply OMaybe. cbn [instantiable] in Ti. apply andb_prop in Ti as [_ Ti]. auto.
  - apply OStream. constructor.
  - apply OStream. constructor.
  - now apply OInt.
Qed.
Lemma suffix_Forall (P : token -> Prop) s' s : suffix s' s -> Forall P (toks s) -> Forall P (toks s').
Proof. intros [p Hp] H. rewrite Hp in H. now apply Forall_app in H as [_ H]. Qed.
Lemma tuple_inv env ts l : object env (TTuple ts) (VList l) -> Forall2 (object env) ts l.
Proof. intros H. inversion H; subst. assumption. Qed.
Lemma tuple_set env ts l n t v : Forall2 (object env) ts l -> nth_error ts n = Some t -> object env t v -> Forall2 (object env) ts (set_nth l n v).
Proof.
  intros F. revert n. induction F as [|t0 x ts l H F IH]; intros n N V; [destruct n; discriminate|]. destruct n as [|n]; cbn [set_nth nth_error] in *.
  - constructor; [|exact F]. congruence.
  - constructor; [exact H|]. auto.
Qed.
Lemma tuple_nth env ts l n t x : Forall2 (object env) ts l -> nth_error ts n = Some t -> nth_error l n = Some x -> object env t x.
Proof.
  intros F. revert n. induction F as [|t0 y ts l H F IH]; intros n N V; [destruct n; discriminate|]. destruct n as [|n]; cbn [nth_error] in *; [congruence|eauto].
Qed.
Section Objects.
  Context (E : float_lib) (pf : nat -> bytes -> Z) (HE : float_lib_ok E) (Hp : parses_in_range pf).
  Notation into := (from_json_into E pf).
  Lemma string_token_ok s x s1 : Forall token_ok (toks s) -> get_string s = Ok (x, s1) -> text_ok x.
  Proof.
    intros F H. destruct s as [[|[] ts] [te|]]; cbn in H; try discriminate; injection H as <- <-; now inversion F.
  Qed.
  Definition object_kept (t : jty) : Prop := forall a s, unrecursive t = true -> instantiable (erase t) = true -> Forall token_ok (toks s) ->
    object key_env (erase t) a -> object key_env (erase t) (fst (into t a s)).
  Lemma into_object : forall t, object_kept t.
  Proof.
    induction t as [b|t IH|t IH|tys IH|nm fs IH|a b IHa IHb|t IH| |t IH|names|k] using jty_ind'; intros x s R Ti F Ob; try exact Ob.
    - assert (K : object key_env (scalar_ty b) (fst (keeping x (get_string s) (scalar_into E pf b x)))).
      { destruct (get_string s) as [[z s1]|e|w] eqn:G; cbn [keeping scalar_into]; try exact Ob.
        destruct (scalar_from_text E b z) as [v|e|w] eqn:Sc; cbn [fst]; [|apply scalar_left_object; auto|exact Ob].
        apply (C54_values_are_objects key_env 0). eapply scalar_from_text_ok; [exact HE|eapply string_token_ok; eauto|exact Sc]. }
      destruct b; try exact K. cbn [from_json_into]. destruct (get_bool s) as [[z s1]|e|w]; cbn [keeping fst]; try exact Ob. apply OBool.
    - cbn [unrecursive erase] in *. cbn [instantiable] in Ti. apply andb_prop in Ti as [_ Ti]. pose proof (default_object t R Ti) as Df.
      inversion Ob as [| | | | | | |? l Fl| | | | | | | | | | | |]; subst. cbn [from_json_into]. destruct (get_start_array s) as [s1|e|w] eqn:G; cbn [keeping]; try exact Ob.
      assert (Q : Forall (object key_env (erase t)) (fst (items_into (into t (jdefault t)) (fuel_of s1) l s1))).
      { apply (items_ind _ (fun l s => Forall (object key_env (erase t)) l /\ Forall token_ok (toks s))).
        - now intros l0 s0 [? _].
        - intros l0 s0 y s' [Hl Hs] Hy. split; [|eapply suffix_Forall; [eapply into_eats; eauto|exact Hs]]. apply Forall_app. split; [exact Hl|]. constructor; [|constructor].
          pose proof (IH (jdefault t) s0 R Ti Hs Df) as K. now rewrite Hy in K.
        - intros l0 s0 y r [Hl Hs] Hy _. apply Forall_app. split; [exact Hl|]. constructor; [|constructor].
          pose proof (IH (jdefault t) s0 R Ti Hs Df) as K. now rewrite Hy in K.
        - split; [exact Fl|]. eapply suffix_Forall; [eapply e_start_array; eauto|exact F]. }
      destruct (items_into _ _ l s1) as [l' [s2|e|w]]; apply OVec; exact Q.
    - cbn [unrecursive erase] in *. cbn [instantiable] in Ti. apply andb_prop in Ti as [_ Ti]. pose proof (default_object t R Ti) as Df.
      cbn [from_json_into]. destruct (get_null_pred s) as [[[|] s1]|e|w] eqn:G; cbn [keeping fst snd]; try exact Ob; [apply ONone|].
      assert (Fs : Forall token_ok (toks s1)) by (eapply suffix_Forall; [eapply e_null; eauto|exact F]).
      pose proof (IH (jdefault t) s1 R Ti Fs Df) as K. destruct (into t (jdefault t) s1) as [y r]. cbn [fst] in *. now apply OSome.
    - cbn [erase] in *. cbn [from_json_into]. destruct (get_start_array s) as [s1|e|w] eqn:G1; cbn [keeping]; try exact Ob.
      destruct (get_string s1) as [[k s2]|e|w] eqn:G2; cbn [keeping fst snd]; try exact Ob.
      destruct (find_named k _ 0) as [[i f]|] eqn:Fn; [|exact Ob].
      assert (Fs : Forall token_ok (toks s2)).
      { eapply suffix_Forall; [eapply e_string; eauto|]. eapply suffix_Forall; [eapply e_start_array; eauto|exact F]. }
      apply find_named_first in Fn as (n & Hi & [Fn _]). rewrite Z.add_0_l in Hi. subst i. rewrite nth_error_map in Fn.
      destruct (nth_error tys n) as [t|] eqn:Nt; [|discriminate]. cbn [option_map] in Fn. assert (f = into t (jdefault t)) by congruence. subst f.
      apply nth_error_In in Nt as Hin. rewrite Forall_forall in IH. specialize (IH t Hin).
      cbn [unrecursive] in R. rewrite forallb_forall in R. specialize (R t Hin).
      assert (Tt : instantiable (erase t) = true).
      { cbn [instantiable] in Ti. apply andb_prop in Ti as [_ Ti]. destruct (map erase tys) as [|t0 ts0] eqn:Em; [discriminate|]. rewrite <- Em in Ti.
        rewrite forallb_forall in Ti. apply Ti. now apply in_map. }
      pose proof (IH (jdefault t) s2 R Tt Fs (default_object t R Tt)) as K. destruct (into t (jdefault t) s2) as [y [s3|e|w]]; cbn [fst] in *;
        apply (OVariant _ _ n (erase t)); auto; rewrite nth_error_map, Nt; reflexivity.
    - cbn [erase] in *. inversion Ob as [| | | | | | | | | | | | | | | | | |? ? ? Ob'|]; subst. inversion Ob' as [| | | | | | | | | | | | | | | |? l Fl| | |]; subst.
      cbn [instantiable ty_ok] in Ti. apply andb_prop in Ti as [_ Ti]. apply andb_prop in Ti as [_ Ti]. cbn [unrecursive] in R. rewrite forallb_forall in R, Ti.
      cbn [from_json_into]. destruct (get_start_object s) as [s1|e|w] eqn:G; cbn [keeping]; try exact Ob.
      assert (Fo : Forall token_ok (toks s1)) by (eapply suffix_Forall; [eapply e_start_object; eauto|exact F]).
      assert (Step : forall l0 s0 k s2 i f cur v r, Forall2 (object key_env) (map (fun f => erase (snd f)) fs) l0 -> Forall token_ok (toks s0) -> get_key s0 = Ok (k, s2) ->
        find_named k (map (fun f => (fst f, into (snd f))) fs) 0 = Some (i, f) -> nthz l0 i = Some cur -> f cur s2 = (v, r) ->
        Forall2 (object key_env) (map (fun f => erase (snd f)) fs) (set_nth l0 (Z.to_nat i) v) /\ Forall token_ok (toks s2)).
      { intros l0 s0 k s2 i f cur v r Hl Hs Gk Fn N Hf. assert (Hs2 : Forall token_ok (toks s2)) by (eapply suffix_Forall; [eapply e_key; eauto|exact Hs]).
        split; [|exact Hs2]. apply first_field in Fn as (n & t & -> & Nf & ->). rewrite Nat2Z.id. rewrite nthz_nth in N.
        rewrite Forall_forall in IH. apply nth_error_In in Nf as Hin. specialize (IH _ Hin). cbn [snd] in IH.
        pose proof (map_nth_error (fun f : bytes * jty => erase (snd f)) _ _ Nf) as Q. cbn [snd] in Q.
        eapply tuple_set; [exact Hl|exact Q|]. specialize (IH cur s2). rewrite Hf in IH. apply IH; [exact (R _ Hin)| |exact Hs2|eapply tuple_nth; eauto].
        apply Ti. apply in_map_iff. exists (k, t). auto. }
      assert (Q : Forall2 (object key_env) (map (fun f => erase (snd f)) fs) (fst (members_into (map (fun f => (fst f, into (snd f))) fs) (fuel_of s1) l s1))).
      { apply (members_ind _ (fun l s => Forall2 (object key_env) (map (fun f => erase (snd f)) fs) l /\ Forall token_ok (toks s))).
        - now intros l0 s0 [? _].
        - intros l0 s0 k s2 i f cur v s3 [Hl Hs] Gk Fn N Hf. destruct (Step _ _ _ _ _ _ _ _ _ Hl Hs Gk Fn N Hf) as [A B]. split; [exact A|].
          apply first_field in Fn as (n & t & -> & Nf & ->). eapply suffix_Forall; [eapply into_eats; eauto|exact B].
        - intros l0 s0 k s2 i f cur v r [Hl Hs] Gk Fn N Hf _. eapply Step; eauto.
        - intros l0 s0 k s2 s3 [Hl Hs] Gk _ Sk. split; [exact Hl|]. eapply suffix_Forall; [eapply e_skip; eauto|]. eapply suffix_Forall; [eapply e_key; eauto|exact Hs].
        - auto. }
      destruct (members_into _ _ l s1) as [l' [s2|e|w]]; apply OWrap, OTuple; exact Q.
    - cbn [erase unrecursive] in *. cbn [instantiable] in Ti. apply andb_prop in Ti as [_ Ti]. inversion Ob; subst. apply OMaybe. cbn [from_json_into]. now apply IH.
  Qed.
End Objects.
(** Members whose key does not come. *)
Lemma into_kept E pf nm fs l s k : exists l', fst (from_json_into E pf (JStruct nm fs) (VList l) s) = VList l' /\ List.length l' = List.length l /\
  (~ In (TkKey k) (toks s) -> forall n t, nth_error fs n = Some (k, t) -> nth_error l' n = nth_error l n).
Proof.
  cbn [from_json_into]. destruct (get_start_object s) as [s1|e|w] eqn:G; cbn [keeping fst]; [|exists l; auto|exists l; auto].
  assert (Q : let l' := fst (members_into (map (fun f => (fst f, from_json_into E pf (snd f))) fs) (fuel_of s1) l s1) in List.length l' = List.length l /\
    (~ In (TkKey k) (toks s) -> forall n t, nth_error fs n = Some (k, t) -> nth_error l' n = nth_error l n)).
  { apply (members_ind _ (fun l' s' => (List.length l' = List.length l /\ (~ In (TkKey k) (toks s) -> forall n t, nth_error fs n = Some (k, t) -> nth_error l' n = nth_error l n)) /\ suffix s' s)
      (fun l' => List.length l' = List.length l /\ (~ In (TkKey k) (toks s) -> forall n t, nth_error fs n = Some (k, t) -> nth_error l' n = nth_error l n))).
    - now intros l0 s0 [? _].
    - intros l0 s0 k0 s2 i f cur v s3 [[Hl Hn] Hs] Gk Fn N Hf. assert (Kin : In (TkKey k0) (toks s)).
      { destruct Hs as [p ->]. apply in_or_app. right. clear - Gk. destruct s0 as [[|[] ts] [te|]]; cbn in Gk; try discriminate; injection Gk as <- <-; now left. }
      apply first_field in Fn as (n & t & -> & Nf & ->). split.
      + split; [now rewrite set_nth_length|]. intros Nk m t0 Nm. rewrite Nat2Z.id. rewrite set_nth_other; [eauto|]. intros ->. congruence.
      + eapply suffix_trans; [eapply into_eats; eauto|]. eapply suffix_trans; [eapply e_key; eauto|exact Hs].
    - intros l0 s0 k0 s2 i f cur v s3 [[Hl Hn] Hs] Gk Fn N Hf _. assert (Kin : In (TkKey k0) (toks s)).
      { destruct Hs as [p ->]. apply in_or_app. right. clear - Gk. destruct s0 as [[|[] ts] [te|]]; cbn in Gk; try discriminate; injection Gk as <- <-; now left. }
      apply first_field in Fn as (n & t & -> & Nf & ->).
      split; [now rewrite set_nth_length|]. intros Nk m t0 Nm. rewrite Nat2Z.id. rewrite set_nth_other; [eauto|]. intros ->. congruence.
    - intros l0 s0 k0 s2 s3 [H Hs] Gk _ Sk. split; [exact H|]. eapply suffix_trans; [eapply e_skip; eauto|]. eapply suffix_trans; [eapply e_key; eauto|exact Hs].
    - split; [auto|]. now apply e_start_object. }
  destruct (members_into _ _ l s1) as [l' [s2|e|w]]; exists l'; cbn [closing fst] in *; auto.
Qed.

(** ** Complete texts *)
Section Over.
  Context (E : float_lib) (ref : nat -> val -> res jv) (rwf : nat -> val -> bool) (W : ov E = Wrap).
  Definition over_at (t : jty) : Prop := forall v j old, two_way t = true -> names_distinct t -> jwf_with rwf t v = true -> survives E t v ->
    tdoc_with E ref t v = Ok j -> shaped t old = true -> treads E t old j (over t old v).
  Lemma members_over : forall fs2 fs1 l1 o2 l2 ms, Forall (fun f => over_at (snd f)) fs2 ->
    NoDup (map fst (fs1 ++ fs2)) -> List.length l1 = List.length fs1 ->
    forallb (fun f => two_way (snd f)) fs2 = true -> Forall (fun f => names_distinct (snd f)) fs2 ->
    forallb2 (map (fun f => jwf_with rwf (snd f)) fs2) l2 = true -> forallb2 (map (fun f : bytes * jty => shaped (snd f)) fs2) o2 = true ->
    (fix go (fs : list (bytes * jty)) (l : list val) {struct fs} : Prop :=
       match fs, l with f :: fs', x :: l' => survives E (snd f) x /\ go fs' l' | _, _ => True end) fs2 l2 ->
    (fix go (fs : list (bytes * jty)) (l : list val) {struct fs} : res (list (bytes * jv)) :=
                      match fs, l with
                      | [], [] => Ok []
                      | f :: fs', x :: l' => let* j := tdoc_with E ref (snd f) x in let* ms := go fs' l' in Ok ((fst f, j) :: ms)
                      | _, _ => ill
                      end) fs2 l2 = Ok ms ->
      treads_members E (fs1 ++ fs2) (l1 ++ o2) ms
        (l1 ++ (fix go (fs : list (bytes * jty)) (l l' : list val) {struct fs} : list val :=
                match fs, l, l' with
                | f :: fs', x :: l, y :: l' => over (snd f) x y :: go fs' l l'
                | _, _, _ => []
                end) fs2 o2 l2).
  Proof.
    induction fs2 as [|[k t] fs2 IH]; intros fs1 l1 o2 l2 ms B D L T N Wf Sh S H.
    - destruct l2; [|discriminate Wf]. destruct o2; [|discriminate Sh]. assert (ms = []) by congruence. subst. constructor.
    - destruct l2 as [|x l2]; [discriminate Wf|]. destruct o2 as [|o o2]; [discriminate Sh|]. cbn [map forallb2 forallb snd fst] in *.
      apply andb_true_iff in Wf as [W1 W2]. apply andb_true_iff in Sh as [Sh1 Sh2]. apply andb_true_iff in T as [T1 T2]. apply Forall_cons_iff in B as [B1 B2].
      apply Forall_cons_iff in N as [N1 N2]. destruct S as [S1 S2]. cbn [snd fst] in *.
      apply bind_Ok in H as (j & Hj & H). apply bind_Ok in H as (ms2 & Hm & H). assert (ms = (k, j) :: ms2) by congruence. subst ms.
      pose proof (B1 x j o T1 N1 W1 S1 Hj Sh1) as R.
      pose proof (IH (fs1 ++ [(k, t)]) (l1 ++ [over t o x]) o2 l2 ms2 B2) as Rm. rewrite <- !app_assoc in Rm. cbn [app] in Rm.
      eapply (R_known E _ _ k j ms2 (List.length fs1) t o (over t o x)).
      + now apply first_named_app.
      + rewrite <- L. rewrite nth_error_app2 by lia. now rewrite Nat.sub_diag.
      + exact R.
      + rewrite <- L, set_nth_app. apply Rm; auto. rewrite !app_length. cbn [List.length]. lia.
  Qed.
  Lemma tdoc_over : forall t, over_at t.
  Proof.
    induction t as [b|t IH|t IH|tys IH|nm fs IH|a b IHa IHb|t IH| |t IH|names|k] using jty_ind'; intros v j old T N Wf S H Sh; try discriminate T.
    - destruct (tdoc_back E ref rwf W (JScalar b) v T N Wf S) as (j' & Hj & R & _). assert (j' = j) by congruence. subst j'. cbn [over].
      inversion R; subst; econstructor; eauto.
    - destruct (tdoc_back E ref rwf W (JVec t) v T N Wf S) as (j' & Hj & R & _). assert (j' = j) by congruence. subst j'.
      destruct old as [| | | |l| |]; try discriminate Sh. unfold jdefault in R. cbn [erase default_of] in R.
      inversion R as [| |t0 l0 js vs Rs| | | | |]; subst. cbn [over app]. now apply R_vec.
    - destruct (tdoc_back E ref rwf W (JOpt t) v T N Wf S) as (j' & Hj & R & _). assert (j' = j) by congruence. subst j'. cbn [over].
      inversion R; subst; econstructor; eauto.
    - destruct (tdoc_back E ref rwf W (JVariant tys) v T N Wf S) as (j' & Hj & R & _). assert (j' = j) by congruence. subst j'. cbn [over].
      inversion R; subst; econstructor; eauto.
    - destruct v as [| | | |l| |]; try discriminate Wf. destruct old as [| | | |o| |]; try discriminate Sh.
      cbn [jwf_with survives tdoc_with two_way names_distinct shaped] in *. destruct N as (N1 & N2 & N3). apply fold_and_In in N3.
      apply bind_Ok in H as (ms & Hm & H). assert (j = JObj ms) by congruence. subst j. cbn [over]. apply R_struct.
      exact (members_over fs [] [] o l ms IH N1 eq_refl T N3 Wf Sh S Hm).
  Qed.
End Over.
Lemma over_replaced : forall t old v rwf, two_way t = true -> replaced t = true -> shaped t old = true -> jwf_with rwf t v = true -> over t old v = v.
Proof.
  induction t as [b|t IH|t IH|tys IH|nm fs IH|a b IHa IHb|t IH| |t IH|names|k] using jty_ind'; intros old v rwf T Rp Sh Wf; try discriminate T; try discriminate Rp; try reflexivity.
  destruct v as [| | | |l| |]; try discriminate Wf. destruct old as [| | | |o| |]; try discriminate Sh. cbn [over]. f_equal.
  cbn [two_way replaced shaped jwf_with] in *. revert o l Sh Wf. induction IH as [|f fs H _ IHf]; intros [|x o] [|y l] Sh Wf; try discriminate; [reflexivity|].
  cbn [map forallb forallb2] in *. apply andb_prop in T as [T1 T2]. apply andb_prop in Rp as [R1 R2]. apply andb_prop in Sh as [S1 S2]. apply andb_prop in Wf as [W1 W2].
  f_equal; [eapply H; eauto|auto].
Qed.
