(** * WatchFacts: conversions with a callback (proofs only) *)
From Verif Require Import Base Stream StreamFacts TypedBin TypedSpec TypedBinFacts TypedBinLocal Json JsonSpec Keys KeysFacts Abi AbiSpec AbiFacts AbiScalar AbiScalarFacts Machine AbiValue AbiBin AbiBinFacts AbiBinSound
  TypedJson AddType DecodeAgreeFacts AbiJson SizeSpec SizeScalar SizeText Watch WatchSpec.

From Verif Require AbiDoc.

Section Generic.
  Context {St R : Type}.
  Variable step : St -> res (St + R).
  Variable calling : St -> bool.
  Fixpoint as_called (l : list St) (r : res R) (throws : nat -> bool) (n : nat) : ending St R :=
    match l with
    | [] => Ended r n
    | s :: l' => if throws n then Stopped s n else as_called l' r throws (S n)
    end.
  Lemma watched_exec s r : exec step s r -> exists l, forall throws n e, watched step calling throws n s e <-> e = as_called l r throws n.
  Proof.
    induction 1 as [s r Hs|s s' r Hs X (l & IH)|s x Hs|s w Hs].
    2: { exists (if calling s then s :: l else l). intros throws n e. split.
         - intros W. destruct W as [n s Hc Ht|n s s1 e Hc Hs1 W|n s y Hc Hy|n s y Hc Hy|n s y Hc Hy]; try congruence.
           + rewrite Hc. cbn [as_called]. now rewrite Ht.
           + assert (s1 = s') by congruence. subst s1. apply IH in W. destruct (calling s); [cbn [as_called]; rewrite (Hc eq_refl); exact W|exact W].
         - intros ->. destruct (calling s) eqn:C; cbn [as_called].
           + destruct (throws n) eqn:T; [now apply watched_throw|]. eapply watched_step; [intros _; exact T|exact Hs|]. rewrite C. now apply IH.
           + eapply watched_step; [intros K; congruence|exact Hs|]. rewrite C. now apply IH. }
    all: exists (if calling s then [s] else []); intros throws n e; split;
      [intros W; destruct W as [n s Hc Ht|n s s1 e Hc Hs1 W|n s y Hc Hy|n s y Hc Hy|n s y Hc Hy]; try congruence;
         [rewrite Hc; cbn [as_called]; now rewrite Ht|];
         destruct (calling s); cbn [as_called]; rewrite ?(Hc eq_refl); congruence
      |intros ->; destruct (calling s) eqn:C; cbn [as_called];
         [destruct (throws n) eqn:T; [now apply watched_throw|]|]].
    - replace (S n) with (if calling s then S n else n) by now rewrite C. now apply watched_done.
    - replace n with (if calling s then S n else n) at 2 by now rewrite C. apply watched_done; [congruence|exact Hs].
    - replace (S n) with (if calling s then S n else n) by now rewrite C. now apply watched_err.
    - replace n with (if calling s then S n else n) at 2 by now rewrite C. apply watched_err; [congruence|exact Hs].
    - replace (S n) with (if calling s then S n else n) by now rewrite C. now apply watched_undef.
    - replace n with (if calling s then S n else n) at 2 by now rewrite C. apply watched_undef; [congruence|exact Hs].
  Qed.
  Lemma as_called_cases l r throws : forall n e, e = as_called l r throws n <->
    (e = Ended r (n + List.length l) /\ forall i, (i < List.length l)%nat -> throws (n + i)%nat = false) \/
    (exists i s, nth_error l i = Some s /\ throws (n + i)%nat = true /\ (forall j, (j < i)%nat -> throws (n + j)%nat = false) /\ e = Stopped s (n + i)).
  Proof.
    induction l as [|s l IH]; intros n e; cbn [as_called].
    - split.
      + intros ->. left. cbn [List.length]. rewrite Nat.add_0_r. split; [reflexivity|]. intros i Hi. lia.
      + intros [[-> _]|(i & s & H & _)]; [cbn [List.length]; now rewrite Nat.add_0_r|]. destruct i; discriminate H.
    - destruct (throws n) eqn:T.
      + split.
        * intros ->. right. exists O, s. cbn [nth_error]. rewrite Nat.add_0_r. split; [reflexivity|]. split; [exact T|]. split; [intros j Hj; lia|reflexivity].
        * intros [[_ H]|(i & s' & H & Hi & Hj & ->)]; [specialize (H O); rewrite Nat.add_0_r in H; cbn [List.length] in H; specialize (H ltac:(lia)); congruence|].
          destruct i as [|i]; [cbn [nth_error] in H; rewrite Nat.add_0_r; congruence|]. specialize (Hj O ltac:(lia)). rewrite Nat.add_0_r in Hj. congruence.
      + rewrite IH. cbn [List.length]. split.
        * intros [[-> H]|(i & s' & H & Hi & Hj & ->)].
          -- left. split; [f_equal; lia|]. intros [|i] Hi; [now rewrite Nat.add_0_r|]. specialize (H i ltac:(lia)). now rewrite Nat.add_succ_r, <- Nat.add_succ_l.
          -- right. exists (S i), s'. cbn [nth_error]. rewrite Nat.add_succ_r, <- Nat.add_succ_l. split; [exact H|]. split; [exact Hi|]. split; [|reflexivity].
             intros [|j] L; [now rewrite Nat.add_0_r|]. rewrite Nat.add_succ_r, <- Nat.add_succ_l. apply Hj. lia.
        * intros [[-> H]|(i & s' & H & Hi & Hj & ->)].
          -- left. split; [f_equal; lia|]. intros i Hi. specialize (H (S i) ltac:(lia)). now rewrite Nat.add_succ_r, <- Nat.add_succ_l in H.
          -- right. destruct i as [|i]; [rewrite Nat.add_0_r in Hi; congruence|]. exists i, s'. rewrite Nat.add_succ_r, <- Nat.add_succ_l in *. split; [exact H|]. split; [exact Hi|]. split; [|reflexivity].
             intros j L. specialize (Hj (S j) ltac:(lia)). now rewrite Nat.add_succ_r, <- Nat.add_succ_l in Hj.
  Qed.
  Lemma unwatched throws n s r k : watched step calling throws n s (Ended r k) -> exec step s r.
  Proof.
    remember (Ended r k) as e eqn:Ee. intros W. revert r k Ee. induction W; intros r0 k0 Ee; try discriminate Ee.
    - eapply exec_step; eauto.
    - injection Ee as <- <-. now apply exec_done.
    - injection Ee as <- <-. now apply exec_err.
    - injection Ee as <- <-. now apply exec_undef.
  Qed.
  (** An invariant of the states in which the callback is called. *)
  Lemma watched_invariant (P : nat -> St -> Prop) throws :
    (forall n s s', P n s -> step s = Ok (inl s') -> P (if calling s then S n else n) s') ->
    forall n s e, watched step calling throws n s e -> P n s ->
      match e with
      | Stopped s' k => P k s' /\ calling s' = true
      | Ended r k => exists n' s', P n' s' /\ k = (if calling s' then S n' else n') /\
          match r with Ok x => step s' = Ok (inr x) | Err x => step s' = Err x | Undef w => step s' = Undef w end
      end.
  Proof. intros Hs n s e W. induction W as [n s Hc Ht|n s s1 e Hc Hs1 W IH|n s y Hc Hy|n s y Hc Hy|n s y Hc Hy]; intros Hp; [now split|apply IH; eapply Hs; eassumption|..]; exists n, s; auto. Qed.
End Generic.

(** ** JSON to bytes: every iteration uses up a token *)
Definition left_in (s : jstate) : nat := List.length (toks (j_in s)).
Definition fuel_of (c : jconfig) : nat := match c with JCall _ _ s => left_in s | JLoop s => S (left_in s) end.
Lemma peek_cons s t : peek_token s = Ok (Some t) -> List.length (toks s) = S (List.length (toks (eat_token s))).
Proof. unfold peek_token, eat_token. destruct (toks s) as [|x l]; [destruct (jtail s); discriminate|reflexivity]. Qed.
Lemma tk_string s b i : get_string s = Ok (b, i) -> List.length (toks s) = S (List.length (toks i)).
Proof. unfold get_string. intros H. apply bind_Ok in H as (t & K & H). destruct t as [[]|]; try discriminate H. apply peek_cons in K. injection H as <- <-. exact K. Qed.
Lemma tk_bool s b i : get_bool s = Ok (b, i) -> List.length (toks s) = S (List.length (toks i)).
Proof. unfold get_bool. intros H. apply bind_Ok in H as (t & K & H). destruct t as [[]|]; try discriminate H. apply peek_cons in K. injection H as <- <-. exact K. Qed.
Lemma tk_object s i : get_start_object s = Ok i -> List.length (toks s) = S (List.length (toks i)).
Proof. unfold get_start_object. intros H. apply bind_Ok in H as (t & K & H). destruct t as [[]|]; try discriminate H. apply peek_cons in K. injection H as <-. exact K. Qed.
Lemma tk_array s i : get_start_array s = Ok i -> List.length (toks s) = S (List.length (toks i)).
Proof. unfold get_start_array. intros H. apply bind_Ok in H as (t & K & H). destruct t as [[]|]; try discriminate H. apply peek_cons in K. injection H as <-. exact K. Qed.
Definition used (b : bool) (s i : jstream) : Prop := List.length (toks s) = ((if b then 1 else 0) + List.length (toks i))%nat.
Lemma tk_null s b i : get_null_pred s = Ok (b, i) -> used b s i.
Proof. unfold get_null_pred, used. intros H. apply bind_Ok in H as (t & K & H). destruct t as [[]|]; try (assert (b = false /\ i = s) as [-> ->] by (split; congruence); reflexivity). apply peek_cons in K. injection H as <- <-. exact K. Qed.
Lemma tk_endobj s b i : get_end_object_pred s = Ok (b, i) -> used b s i.
Proof. unfold get_end_object_pred, used. intros H. apply bind_Ok in H as (t & K & H). destruct t as [[]|]; try (assert (b = false /\ i = s) as [-> ->] by (split; congruence); reflexivity). apply peek_cons in K. injection H as <- <-. exact K. Qed.
Lemma tk_endarr s b i : get_end_array_pred s = Ok (b, i) -> used b s i.
Proof. unfold get_end_array_pred, used. intros H. apply bind_Ok in H as (t & K & H). destruct t as [[]|]; try (assert (b = false /\ i = s) as [-> ->] by (split; congruence); reflexivity). apply peek_cons in K. injection H as <- <-. exact K. Qed.
Lemma tk_key s k i : maybe_get_key s = Ok (k, i) -> used (match k with Some _ => true | None => false end) s i.
Proof. unfold maybe_get_key, used. intros H. apply bind_Ok in H as (t & K & H). destruct t as [[]|]; try (assert (k = None /\ i = s) as [-> ->] by (split; congruence); reflexivity). apply peek_cons in K. injection H as <- <-. exact K. Qed.

Lemma jobject_fuel m fields f rest s c : jobject m fields f rest s = Ok c -> (fuel_of c <= left_in s)%nat.
Proof.
  unfold jobject, left_in. intros H. apply bind_Ok in H as ([b i] & K & H). apply tk_endobj in K. unfold used in K. destruct b.
  - destruct (_ =? _); [injection H as <-; cbn [fuel_of left_in]; unfold left_in; cbn [set_stack set_in j_in]; lia|]. destruct (nthz fields _) as [[x q]|]; [|discriminate H].
    apply bind_Ok in H as (e & _ & H). apply bind_Ok in H as (u & _ & H). injection H as <-. cbn [fuel_of]. unfold left_in. cbn [j_in]. lia.
  - apply bind_Ok in H as ([key i2] & K2 & H). apply tk_key in K2. unfold used in K2. destruct key as [key|].
    + apply bind_Ok in H as (u & _ & H). destruct (nthz fields _) as [[x q]|]; [|discriminate H]. apply bind_Ok in H as (u' & _ & H). injection H as <-. cbn [fuel_of]. unfold left_in. cbn [set_stack set_in j_in]. lia.
    + destruct (nthz fields _) as [[x q]|]; [|discriminate H]. injection H as <-. cbn [fuel_of]. unfold left_in. cbn [set_stack set_in j_in]. lia.
Qed.
Lemma jcall_fuel E m ext p s c : jcall E m ext p s = Ok c -> (fuel_of c <= left_in s)%nat.
Proof.
  unfold jcall. intros H. apply bind_Ok in H as (d & _ & H).
  assert (Str : forall b, (let* (t, i) := get_string (j_in s) in let* o := scalar_write E b t (j_out s) in Ok (JLoop (set_out (set_in s i) o))) = Ok c -> (fuel_of c <= left_in s)%nat).
  { intros b Q. apply bind_Ok in Q as ([t i] & K & Q). apply bind_Ok in Q as (o & _ & Q). apply tk_string in K. injection Q as <-. cbn [fuel_of]. unfold left_in. cbn [set_out set_in j_in]. lia. }
  destruct d; try discriminate H.
  - destruct b; try (apply (Str _ H)). apply bind_Ok in H as ([t i] & K & H). apply bind_Ok in H as (o & _ & H). apply tk_bool in K. injection H as <-. cbn [fuel_of]. unfold left_in. cbn [set_out set_in j_in]. lia.
  - apply bind_Ok in H as ([b i] & K & H). apply tk_null in K. unfold used in K. destruct b; injection H as <-; cbn [fuel_of]; unfold left_in; cbn [set_out set_in j_in]; lia.
  - injection H as <-. cbn [fuel_of]. lia.
  - apply bind_Ok in H as (i & K & H). apply tk_array in K. injection H as <-. cbn [fuel_of]. unfold left_in. cbn [j_in]. lia.
  - apply bind_Ok in H as (i & K & H). apply tk_object in K. apply jobject_fuel in H. unfold left_in in *. cbn [set_in j_in] in H. lia.
  - apply bind_Ok in H as (i & K & H). apply tk_array in K. injection H as <-. cbn [fuel_of]. unfold left_in. cbn [set_stack set_in j_in]. lia.
Qed.
Lemma jadvance_fuel E m f rest s c : jadvance E m f rest s = Ok c -> (fuel_of c <= left_in s)%nat.
Proof.
  unfold jadvance. intros H. apply bind_Ok in H as (d & _ & H). destruct d; try discriminate H.
  - apply bind_Ok in H as ([b i] & K & H). apply tk_endarr in K. unfold used in K. destruct b.
    + injection H as <-. cbn [fuel_of]. unfold left_in. cbn [j_in]. lia.
    + apply bind_Ok in H as (u & _ & H). injection H as <-. cbn [fuel_of]. unfold left_in. cbn [set_stack set_in j_in]. lia.
  - now apply jobject_fuel in H.
  - apply bind_Ok in H as ([b i] & K & H). apply tk_endarr in K. unfold used in K. destruct b.
    + apply bind_Ok in H as (u & _ & H). injection H as <-. cbn [fuel_of]. unfold left_in. cbn [set_stack set_in j_in]. lia.
    + destruct (_ =? 0); [|destruct (_ =? 1); [|discriminate H]].
      * apply bind_Ok in H as ([t i2] & K2 & H). apply tk_string in K2. destruct (find_name _ _ _) as [[x y]|]; [|discriminate H]. apply bind_Ok in H as (o & _ & H). injection H as <-.
        cbn [fuel_of]. unfold left_in. cbn [j_in]. lia.
      * destruct (nthz fields _) as [[x q]|]; [|discriminate H]. injection H as <-. cbn [fuel_of]. unfold left_in. cbn [set_stack set_in j_in]. lia.
Qed.
Lemma parse_tokens : forall fuel st stk b, (List.length (fst (parse fuel st stk b)) <= fuel)%nat.
Proof.
  induction fuel as [|fuel IH]; intros st stk b; [cbn; lia|]. cbn [parse]. destruct b as [|x b]; [cbn; lia|]. destruct (step st stk _) as [[[[st' stk'] t] r]|e|w]; [|cbn; lia|cbn; lia].
  assert (X : (List.length (fst (let (ts, e) := parse fuel st' stk' r in (match t with Some t => t :: ts | None => ts end, e))) <= S fuel)%nat).
  { specialize (IH st' stk' r). destruct (parse fuel st' stk' r) as [ts e]. cbn [fst] in *. destruct t; cbn [List.length]; lia. }
  destruct st'; try exact X. destruct (skip_ws r); [destruct t; cbn; lia|cbn; lia].
Qed.
Lemma cstr_length s : (List.length (cstr s) <= List.length s)%nat.
Proof. induction s as [|x s IH]; [cbn; lia|]. cbn [cstr]. destruct (x =? 0); cbn [List.length]; lia. Qed.
Lemma json_calls E m throws p json bin e : json_to_bin_with throws E m p json bin e -> (calls_of e <= List.length json + 2)%nat.
Proof.
  unfold json_to_bin_with. set (c0 := JCall _ _ _). intros W.
  pose proof (watched_invariant (jstep E m bin) jcalling (fun n c => (n + fuel_of c <= fuel_of c0)%nat) throws) as I.
  assert (F0 : (fuel_of c0 <= List.length json + 1)%nat).
  { unfold c0. cbn [fuel_of]. unfold left_in. cbn [j_in]. unfold open_json, tokenize. pose proof (parse_tokens (S (List.length (cstr json))) PStart [] (cstr json)) as T.
    destruct (parse _ _ _ _) as [ts x]. cbn [fst toks] in *. pose proof (cstr_length json). lia. }
  assert (St : forall n s s', (n + fuel_of s <= fuel_of c0)%nat -> jstep E m bin s = Ok (inl s') -> ((if jcalling s then S n else n) + fuel_of s' <= fuel_of c0)%nat).
  { intros n s s' H H'. destruct s as [ext q s|s]; cbn [jstep jcalling fuel_of] in *.
    - apply bind_Ok in H' as (c' & K & H'). assert (c' = s') by congruence. subst c'. apply jcall_fuel in K. lia.
    - destruct (j_stack s) as [|f rest]; [apply bind_Ok in H' as (u & _ & H'); apply bind_Ok in H' as (y & _ & H'); discriminate H'|].
      apply bind_Ok in H' as (u & _ & H'). apply bind_Ok in H' as (c' & K & H'). assert (c' = s') by congruence. subst c'. apply jadvance_fuel in K. lia. }
  specialize (I St O c0 e W (le_n _)). cbv beta in I. clear St. generalize dependent (fuel_of c0). intros f0 I F0. destruct e as [r k|s k]; cbn [calls_of].
  - destruct I as (n' & s' & H & -> & _). destruct (jcalling s'); lia.
  - destruct I as [H _]. lia.
Qed.

(** ** Bytes to JSON *)
Definition owe (m : amap) (f : bframe) : Z :=
  match afind (bf_type f) m with
  | Some (AStruct fs) => Z.max 0 (Z.of_nat (List.length fs) - (bf_pos f + 1))
  | Some (AArray _) => if bf_pos f <? 0 then 1 else 0
  | _ => 0
  end.
Definition debt (m : amap) (s : bstate) : Z := fold_right (fun f z => owe m f + z) 0 (b_stack s).
Notation zlen l := (Z.of_nat (List.length l)).
Lemma deref_find p m d : deref p m = Ok d -> afind p m = Some d.
Proof. unfold deref. destruct (afind p m); intros H; congruence. Qed.
Lemma bstart_pays E m F : fields_up_to F m -> forall c ext p s s', bstart E m c ext p s = Ok s' ->
  debt m s' + Z.of_nat (S F) * zlen (b_out s) <= debt m s + Z.of_nat (S F) * zlen (b_out s') /\ zlen (b_out s) <= zlen (b_out s').
Proof.
  intros HF. induction c as [|c IH]; intros ext p s s' H; [discriminate|]. cbn [bstart] in H. apply bind_Ok in H as (d & D & H). apply deref_find in D.
  assert (Same : forall r t, debt m (BS r (b_out s ++ t) (b_stack s)) = debt m s) by reflexivity.
  assert (Grow : forall t, zlen (b_out s ++ t) = zlen (b_out s) + zlen t) by (intros t; rewrite app_length; lia).
  destruct d; try discriminate H.
  - apply bind_Ok in H as ([v r] & _ & H). apply bind_Ok in H as (t & _ & H). injection H as <-. cbn [b_out]. rewrite Same, Grow. split; nia.
  - apply bind_Ok in H as ([v r] & _ & H). assert (N : Ok (BS r (b_out s ++ str "null") (b_stack s)) = Ok s' -> debt m s' + Z.of_nat (S F) * zlen (b_out s) <= debt m s + Z.of_nat (S F) * zlen (b_out s') /\ zlen (b_out s) <= zlen (b_out s')).
    { intros Q. injection Q as <-. cbn [b_out]. rewrite Same, Grow. split; nia. }
    destruct v; try exact (N H). destruct b; [|exact (N H)]. apply IH in H. cbn [b_out] in H. exact H.
  - apply IH in H. exact H.
  - apply bind_Ok in H as ([n r] & _ & H). injection H as <-. cbn [b_out]. rewrite Grow. unfold debt. cbn [b_stack fold_right]. unfold owe at 1. cbn [bf_type bf_pos]. rewrite D. cbn [List.length].
    change (-1 <? 0) with true. cbv iota. split; nia.
  - injection H as <-. cbn [b_out]. rewrite Grow. unfold debt. cbn [b_stack fold_right]. unfold owe at 1. cbn [bf_type bf_pos]. rewrite D. pose proof (HF p fields D). cbn [List.length]. split; nia.
  - injection H as <-. cbn [b_out]. rewrite Grow. unfold debt. cbn [b_stack fold_right]. unfold owe at 1. cbn [bf_type bf_pos]. rewrite D. cbn [List.length]. split; nia.
Qed.
Lemma nthz_bounds {A} (l : list A) : forall i x, nthz l i = Some x -> 0 <= i < zlen l.
Proof.
  induction l as [|y l IH]; intros i x H; [discriminate H|]. cbn [nthz] in H. cbn [List.length]. destruct (i =? 0) eqn:B; [apply Z.eqb_eq in B; lia|]. apply IH in H. lia.
Qed.
Lemma badvance_pays E m F f rest s s' : fields_up_to F m -> b_stack s = f :: rest -> badvance E m f rest s = Ok s' ->
  1 + debt m s' + Z.of_nat (S F) * zlen (b_out s) <= debt m s + Z.of_nat (S F) * zlen (b_out s').
Proof.
  intros HF Es H. unfold badvance in H. apply bind_Ok in H as (d & D & H). apply deref_find in D.
  set (pos := bf_pos f + 1) in *. set (f' := BF (bf_type f) (bf_ext f) pos (bf_size f)) in *.
  assert (Ds : debt m s = owe m f + fold_right (fun f z => owe m f + z) 0 rest) by (unfold debt; rewrite Es; reflexivity).
  assert (Df : forall i o, debt m (BS i o (f' :: rest)) = owe m f' + fold_right (fun f z => owe m f + z) 0 rest) by reflexivity.
  assert (Dr : forall i o, debt m (BS i o rest) = fold_right (fun f z => owe m f + z) 0 rest) by reflexivity.
  assert (Grow : forall t, zlen (b_out s ++ t) = zlen (b_out s) + zlen t) by (intros t; rewrite app_length; lia).
  assert (Of : 0 <= owe m f) by (unfold owe; destruct (afind _ m) as [[]|]; try lia; destruct (_ <? 0); lia).
  set (R := fold_right (fun f z => owe m f + z) 0 rest) in *. clearbody R.
  destruct d; try discriminate H.
  - apply bind_Ok in H as (u & _ & H). assert (O1 : owe m f' <= owe m f) by (unfold owe, f'; cbn [bf_type bf_pos]; rewrite D; unfold pos; destruct (bf_pos f <? 0) eqn:B1; destruct (bf_pos f + 1 <? 0) eqn:B2; lia).
    assert (O2 : pos = 0 -> 1 + owe m f' <= owe m f) by (intros P0; unfold owe, f'; cbn [bf_type bf_pos]; rewrite D, P0; replace (bf_pos f) with (-1) by (unfold pos in P0; lia); reflexivity).
    destruct (pos <? bf_size f).
    + apply (bstart_pays E m F HF) in H as [H L]. cbn [b_out] in H, L. rewrite Df in H. rewrite Grow in H, L. rewrite Ds. destruct (pos =? 0) eqn:P0.
      * apply Z.eqb_eq in P0. specialize (O2 P0). cbn [List.length] in *. nia.
      * cbn [List.length] in *. nia.
    + injection H as <-. cbn [b_out]. rewrite Dr, Grow, Ds. cbn [List.length]. nia.
  - destruct (nthz fields pos) as [[name q]|] eqn:Nz.
    + apply nthz_bounds in Nz. assert (O1 : 1 + owe m f' <= owe m f) by (unfold owe, f'; cbn [bf_type bf_pos]; rewrite D; unfold pos in *; lia).
      apply bind_Ok in H as (x & _ & H). destruct (_ && _ && _).
      * injection H as <-. cbn [b_out]. rewrite Df, Ds. lia.
      * apply (bstart_pays E m F HF) in H as [H L]. cbn [b_out] in H, L. rewrite Df in H. rewrite Ds. rewrite Grow in H, L. nia.
    + injection H as <-. cbn [b_out]. rewrite Dr, Grow, Ds. cbn [List.length]. nia.
  - assert (O1 : owe m f' = 0 /\ owe m f = 0) by (unfold owe, f'; cbn [bf_type bf_pos]; rewrite D; auto). destruct O1 as [O1 O2]. destruct (pos =? 0).
    + apply bind_Ok in H as ([i r] & _ & H). destruct (nthz fields i) as [[name q]|]; [|discriminate H].
      apply (bstart_pays E m F HF) in H as [H L]. cbn [b_out] in H, L. rewrite Df, O1 in H. rewrite Grow in H, L. rewrite Ds, O2. rewrite !app_length in H, L. cbn [List.length] in H, L. nia.
    + injection H as <-. cbn [b_out]. rewrite Dr, Grow, Ds. cbn [List.length]. nia.
Qed.
(** How much is written. *)
Lemma scalar_written E b bs v rest t : small bs -> from_bin key_env 0 (scalar_ty b) bs = Ok (v, rest) -> scalar_to_json E b v = Ok t ->
  small rest /\ zlen t <= 110 * (zlen bs - zlen rest) /\ zlen rest <= zlen bs.
Proof.
  intros Sm F J. pose proof (scalar_read_wf (fun _ _ => false) b bs v rest Sm F) as W.
  assert (Ok_ : scalar_ok b v) by (unfold scalar_ok; rewrite wf_unfold; exact (scalar_read_wf _ b bs v rest Sm F)).
  rewrite (scalar_to_json_spec E b v Ok_) in J. apply bind_Ok in J as (j & J & Q). assert (t = print j) by congruence. subst t.
  assert (L : local (from_bin key_env 0 (scalar_ty b))) by (apply from_bin_local; [intros; reflexivity|destruct b; reflexivity]).
  destruct (L bs v rest F) as (p & -> & Fr). destruct Sm as [B Ln]. apply Forall_app in B as [B1 B2]. rewrite app_length in Ln |- *.
  split; [split; [exact B2|lia]|]. destruct (scalar_text E b v j p B1 Ok_ J Fr) as [_ X]. lia.
Qed.
Lemma small_suffix c r : small (c ++ r) -> small r.
Proof. intros [B L]. apply Forall_app in B as [_ B]. rewrite app_length in L. split; [exact B|lia]. Qed.
Lemma vu_part bs n r : small bs -> varuint32_from_bin bs = Ok (n, r) -> small r /\ zlen r <= zlen bs.
Proof. intros Sm H. unfold varuint32_from_bin in H. apply vu_nonempty in H as (c & -> & _). split; [now apply small_suffix in Sm|]. rewrite app_length. lia. Qed.
Lemma bool_part bs v r : small bs -> from_bin key_env 0 TBool bs = Ok (v, r) -> small r /\ zlen r <= zlen bs.
Proof.
  intros Sm H. assert (L : local (from_bin key_env 0 TBool)) by (apply from_bin_local; [intros; reflexivity|reflexivity]).
  destruct (L bs v r H) as (p & -> & _). split; [now apply small_suffix in Sm|]. rewrite app_length. lia.
Qed.
Lemma bstart_writes E m : forall c ext p s s', small (b_in s) -> bstart E m c ext p s = Ok s' ->
  small (b_in s') /\ zlen (b_in s') <= zlen (b_in s) /\ zlen (b_out s') <= zlen (b_out s) + 4 + 110 * (zlen (b_in s) - zlen (b_in s')).
Proof.
  induction c as [|c IH]; intros ext p s s' Sm H; [discriminate|]. cbn [bstart] in H. apply bind_Ok in H as (d & D & H).
  assert (Grow : forall t, zlen (b_out s ++ t) = zlen (b_out s) + zlen t) by (intros t; rewrite app_length; lia).
  destruct d; try discriminate H.
  - apply bind_Ok in H as ([v r] & F & H). apply bind_Ok in H as (t & T & H). destruct (scalar_written E b (b_in s) v r t Sm F T) as (S1 & S2 & S3).
    injection H as <-. cbn [b_out b_in]. rewrite Grow. split; [exact S1|]. lia.
  - apply bind_Ok in H as ([v r] & F & H). destruct (bool_part _ _ _ Sm F) as [S1 S2].
    assert (N : Ok (BS r (b_out s ++ str "null") (b_stack s)) = Ok s' -> small (b_in s') /\ zlen (b_in s') <= zlen (b_in s) /\ zlen (b_out s') <= zlen (b_out s) + 4 + 110 * (zlen (b_in s) - zlen (b_in s'))).
    { clear H. intros Q. assert (Z4 : zlen (str "null") = 4) by reflexivity. generalize dependent (str "null"). intros nl Q Z4. injection Q as <-. cbn [b_out b_in]. rewrite Grow, Z4. split; [exact S1|]. lia. }
    destruct v; try exact (N H). destruct b; [|exact (N H)]. apply IH in H; [|exact S1]. cbn [b_out b_in] in H. destruct H as (H1 & H2 & H3). split; [exact H1|]. lia.
  - apply IH in H; assumption.
  - apply bind_Ok in H as ([n r] & F & H). destruct (vu_part _ _ _ Sm F) as [S1 S2]. injection H as <-. cbn [b_out b_in]. rewrite Grow. cbn [List.length]. split; [exact S1|]. lia.
  - injection H as <-. cbn [b_out b_in]. rewrite Grow. cbn [List.length]. split; [exact Sm|]. lia.
  - injection H as <-. cbn [b_out b_in]. rewrite Grow. cbn [List.length]. split; [exact Sm|]. lia.
Qed.
Lemma nthz_name L m p fs i name q : names_up_to L m -> afind p m = Some (AStruct fs) \/ afind p m = Some (AVariant fs) -> nthz fs i = Some (name, q) -> zlen (to_json_string name) <= 6 * Z.of_nat L + 2.
Proof.
  intros N D H. apply N in D. apply AbiDoc.nthz_in in H. rewrite Forall_forall in D. apply D in H. cbn [fst] in H. pose proof (string_len name). lia.
Qed.
Lemma badvance_writes E m L f rest s s' : names_up_to L m -> small (b_in s) -> badvance E m f rest s = Ok s' ->
  small (b_in s') /\ zlen (b_in s') <= zlen (b_in s) /\ zlen (b_out s') <= zlen (b_out s) + (6 * Z.of_nat L + 8) + 110 * (zlen (b_in s) - zlen (b_in s')).
Proof.
  intros N Sm H. unfold badvance in H. apply bind_Ok in H as (d & D & H). apply deref_find in D.
  assert (Grow : forall t, zlen (b_out s ++ t) = zlen (b_out s) + zlen t) by (intros t; rewrite app_length; lia).
  set (f' := BF _ _ _ _) in *. clearbody f'.
  destruct d; try discriminate H.
  - apply bind_Ok in H as (u & _ & H). destruct (_ <? bf_size f).
    + apply bstart_writes in H; [|exact Sm]. cbn [b_in b_out] in H. rewrite Grow in H. destruct H as (H1 & H2 & H3). split; [exact H1|]. split; [exact H2|].
      assert (zlen (if bf_pos f + 1 =? 0 then [] else [44]) <= 1) by (destruct (_ =? 0); cbn [List.length]; lia). lia.
    + injection H as <-. cbn [b_out b_in]. rewrite Grow. cbn [List.length]. split; [exact Sm|]. lia.
  - destruct (nthz fields _) as [[name q]|] eqn:Nz.
    + apply bind_Ok in H as (x & _ & H). pose proof (nthz_name L m _ fields _ name q N (or_introl D) Nz) as Ln. destruct (_ && _ && _).
      * injection H as <-. cbn [b_out b_in]. split; [exact Sm|]. lia.
      * apply bstart_writes in H; [|exact Sm]. cbn [b_in b_out] in H. rewrite Grow, !app_length in H. cbn [List.length] in H. destruct H as (H1 & H2 & H3). split; [exact H1|]. split; [exact H2|].
        assert (zlen (if bf_pos f + 1 =? 0 then [] else [44]) <= 1) by (destruct (_ =? 0); cbn [List.length]; lia). lia.
    + injection H as <-. cbn [b_out b_in]. rewrite Grow. cbn [List.length]. split; [exact Sm|]. lia.
  - destruct (_ =? 0).
    + apply bind_Ok in H as ([i r] & F & H). destruct (vu_part _ _ _ Sm F) as [S1 S2]. destruct (nthz fields i) as [[name q]|] eqn:Nz; [|discriminate H].
      pose proof (nthz_name L m _ fields _ name q N (or_intror D) Nz) as Ln.
      apply bstart_writes in H; [|exact S1]. cbn [b_in b_out] in H. rewrite Grow, !app_length in H. cbn [List.length] in H. destruct H as (H1 & H2 & H3). split; [exact H1|]. lia.
    + injection H as <-. cbn [b_out b_in]. rewrite Grow. cbn [List.length]. split; [exact Sm|]. lia.
Qed.
Lemma bin_writes throws E m p bin e L t : small bin -> names_up_to L m -> bin_to_json_with throws E m p bin e -> written e = Some t ->
  zlen t <= (6 * Z.of_nat L + 8) * (Z.of_nat (calls_of e) + 1) + 110 * zlen bin.
Proof.
  intros Sm N W T. unfold bin_to_json_with in W. destruct (bstart _ _ _ _ _ _) as [s0|x|w] eqn:B; [|subst e; discriminate T|subst e; discriminate T].
  apply bstart_writes in B; [|exact Sm]. cbn [b_in b_out List.length] in B. destruct B as (B1 & B2 & B3).
  pose proof (watched_invariant (bstep E m) bcalling (fun n s => small (b_in s) /\ zlen (b_out s) <= (6 * Z.of_nat L + 8) * (Z.of_nat n + 1) + 110 * (zlen bin - zlen (b_in s))) throws) as I.
  cbv beta in I. lapply I.
  2: { intros n s s' [S1 S2] H. unfold bstep, bcalling in *. destruct (b_stack s) as [|f rest]; [discriminate H|]. apply bind_Ok in H as (s1 & A & H). apply bind_Ok in H as (u & _ & H).
       assert (s1 = s') by congruence. subst s1. apply (badvance_writes E m L) in A; [|exact N|exact S1]. destruct A as (A1 & A2 & A3). split; [exact A1|]. nia. }
  intros I'. specialize (I' O s0 e W). lapply I'; [|split; [exact B1|lia]]. intros I2. destruct e as [r k|s k]; cbn [calls_of written] in *.
  - destruct r as [[t' r]|x|w]; try discriminate T. assert (t' = t) by congruence. subst t'. destruct I2 as (n' & s' & [_ P] & -> & Q).
    unfold bstep, bcalling in *. destruct (b_stack s') as [|f rest]; [|apply bind_Ok in Q as (s1 & A & H); apply bind_Ok in H as (u & _ & H); discriminate H].
    assert (t = b_out s') by congruence. subst t. lia.
  - assert (t = b_out s) by congruence. subst t. destruct I2 as [[_ P] _]. lia.
Qed.
Lemma owe_nonneg m f : 0 <= owe m f.
Proof. unfold owe. destruct (afind _ m) as [[]|]; try lia. destruct (_ <? 0); lia. Qed.
Lemma debt_nonneg m s : 0 <= debt m s.
Proof. unfold debt. induction (b_stack s) as [|f l IH]; cbn [fold_right]; [lia|]. pose proof (owe_nonneg m f). lia. Qed.
Lemma bin_calls throws E m p bin e F t : fields_up_to F m -> bin_to_json_with throws E m p bin e -> written e = Some t ->
  Z.of_nat (calls_of e) <= Z.of_nat (S F) * zlen t.
Proof.
  intros N W T. unfold bin_to_json_with in W. destruct (bstart _ _ _ _ _ _) as [s0|x|w] eqn:B; [|subst e; discriminate T|subst e; discriminate T].
  apply (bstart_pays E m F N) in B. cbn [b_in b_out List.length] in B. destruct B as [B1 _]. change (debt m (BS bin [] [])) with 0 in B1.
  pose proof (watched_invariant (bstep E m) bcalling (fun n s => Z.of_nat n + debt m s <= Z.of_nat (S F) * zlen (b_out s)) throws) as I.
  cbv beta in I. lapply I.
  2: { intros n s s' P H. unfold bstep, bcalling in *. destruct (b_stack s) as [|f rest] eqn:Es; [discriminate H|]. apply bind_Ok in H as (s1 & A & H). apply bind_Ok in H as (u & _ & H).
       assert (s1 = s') by congruence. subst s1. apply (badvance_pays E m F) in A; [|exact N|exact Es]. lia. }
  intros I'. specialize (I' O s0 e W). lapply I'; [|lia]. intros I2. destruct e as [r k|s k]; cbn [calls_of written] in *.
  - destruct r as [[t' r]|x|w]; try discriminate T. assert (t' = t) by congruence. subst t'. destruct I2 as (n' & s' & P & -> & Q). pose proof (debt_nonneg m s').
    unfold bstep, bcalling in *. destruct (b_stack s') as [|f rest]; [|apply bind_Ok in Q as (s1 & A & H'); apply bind_Ok in H' as (u & _ & H'); discriminate H'].
    assert (t = b_out s') by congruence. subst t. lia.
  - assert (t = b_out s) by congruence. subst t. destruct I2 as [P _]. pose proof (debt_nonneg m s). lia.
Qed.

(** ** JSON to bytes: not more than two tokens between two calls *)
Definition spent (c : jconfig) : nat := match c with JCall _ _ s => left_in s | JLoop s => S (S (left_in s)) end.
Lemma jobject_spent m fields f rest s c : jobject m fields f rest s = Ok c -> (S (left_in s) <= spent c)%nat \/ exists ext q s', c = JCall ext q s' /\ left_in s' = left_in s.
Proof.
  unfold jobject, left_in. intros H. apply bind_Ok in H as ([b i] & K & H). apply tk_endobj in K. unfold used in K. destruct b.
  - destruct (_ =? _); [injection H as <-; cbn [spent]; unfold left_in; cbn [set_stack set_in j_in]; left; lia|]. destruct (nthz fields _) as [[x q]|]; [|discriminate H].
    apply bind_Ok in H as (e & _ & H). apply bind_Ok in H as (u & _ & H). injection H as <-. cbn [spent]. unfold left_in. cbn [j_in]. left. lia.
  - apply bind_Ok in H as ([key i2] & K2 & H). apply tk_key in K2. unfold used in K2. destruct key as [key|].
    + apply bind_Ok in H as (u & _ & H). destruct (nthz fields _) as [[x q]|]; [|discriminate H]. apply bind_Ok in H as (u' & _ & H). injection H as <-. cbn [spent]. unfold left_in. cbn [set_stack set_in j_in]. left. lia.
    + destruct (nthz fields _) as [[x q]|]; [|discriminate H]. injection H as <-. right. do 3 eexists. split; [reflexivity|]. cbn [set_stack set_in j_in]. lia.
Qed.
Lemma jcall_spent E m ext p s c : jcall E m ext p s = Ok c -> (left_in s <= spent c)%nat.
Proof.
  unfold jcall. intros H. apply bind_Ok in H as (d & _ & H).
  assert (Str : forall b, (let* (t, i) := get_string (j_in s) in let* o := scalar_write E b t (j_out s) in Ok (JLoop (set_out (set_in s i) o))) = Ok c -> (left_in s <= spent c)%nat).
  { intros b Q. apply bind_Ok in Q as ([t i] & K & Q). apply bind_Ok in Q as (o & _ & Q). apply tk_string in K. injection Q as <-. cbn [spent]. unfold left_in. cbn [set_out set_in j_in]. lia. }
  destruct d; try discriminate H.
  - destruct b; try (apply (Str _ H)). apply bind_Ok in H as ([t i] & K & H). apply bind_Ok in H as (o & _ & H). apply tk_bool in K. injection H as <-. cbn [spent]. unfold left_in. cbn [set_out set_in j_in]. lia.
  - apply bind_Ok in H as ([b i] & K & H). apply tk_null in K. unfold used in K. destruct b; injection H as <-; cbn [spent]; unfold left_in; cbn [set_out set_in j_in]; lia.
  - injection H as <-. cbn [spent]. lia.
  - apply bind_Ok in H as (i & K & H). apply tk_array in K. injection H as <-. cbn [spent]. unfold left_in. cbn [j_in]. lia.
  - apply bind_Ok in H as (i & K & H). apply tk_object in K. unfold jobject in H. apply bind_Ok in H as ([b i1] & K1 & H). apply tk_endobj in K1. unfold used in K1. cbn [jf_pos j_in set_in] in *. destruct b.
    + destruct (_ =? _); [injection H as <-; cbn [spent]; unfold left_in; cbn [set_stack set_in j_in]; lia|]. destruct (nthz fields _) as [[x q]|]; [|discriminate H].
      apply bind_Ok in H as (e & _ & H). apply bind_Ok in H as (u & _ & H). injection H as <-. cbn [spent]. unfold left_in. cbn [j_in]. lia.
    + apply bind_Ok in H as ([key i2] & K2 & H). apply tk_key in K2. unfold used in K2. destruct key as [key|].
      * apply bind_Ok in H as (u & _ & H). destruct (nthz fields _) as [[x q]|]; [|discriminate H]. apply bind_Ok in H as (u' & _ & H). injection H as <-. cbn [spent]. unfold left_in. cbn [set_stack set_in j_in]. lia.
      * destruct (nthz fields (-1)) as [[x q]|] eqn:Nz; [|discriminate H]. apply nthz_bounds in Nz. lia.
  - apply bind_Ok in H as (i & K & H). apply tk_array in K. injection H as <-. cbn [spent]. unfold left_in. cbn [set_stack set_in j_in]. lia.
Qed.
Lemma jadvance_spent E m f rest s c : jadvance E m f rest s = Ok c -> (left_in s <= spent c)%nat.
Proof.
  unfold jadvance. intros H. apply bind_Ok in H as (d & _ & H). destruct d; try discriminate H.
  - apply bind_Ok in H as ([b i] & K & H). apply tk_endarr in K. unfold used in K. destruct b.
    + injection H as <-. cbn [spent]. unfold left_in. cbn [j_in]. lia.
    + apply bind_Ok in H as (u & _ & H). injection H as <-. cbn [spent]. unfold left_in. cbn [set_stack set_in j_in]. lia.
  - apply jobject_spent in H as [H|(x & q & s' & -> & H)]; [lia|]. cbn [spent]. lia.
  - apply bind_Ok in H as ([b i] & K & H). apply tk_endarr in K. unfold used in K. destruct b.
    + apply bind_Ok in H as (u & _ & H). injection H as <-. cbn [spent]. unfold left_in. cbn [set_stack set_in j_in]. lia.
    + destruct (_ =? 0); [|destruct (_ =? 1); [|discriminate H]].
      * apply bind_Ok in H as ([t i2] & K2 & H). apply tk_string in K2. destruct (find_name _ _ _) as [[x y]|]; [|discriminate H]. apply bind_Ok in H as (o & _ & H). injection H as <-.
        cbn [spent]. unfold left_in. cbn [j_in]. lia.
      * destruct (nthz fields _) as [[x q]|]; [|discriminate H]. injection H as <-. cbn [spent]. unfold left_in. cbn [set_stack set_in j_in]. lia.
Qed.
Lemma json_reads E m throws p json bin e : json_to_bin_with throws E m p json bin e ->
  match e with
  | Stopped c k => exists s, c = JLoop s /\ (List.length (toks (open_json json)) <= left_in s + 2 * (k + 1))%nat
  | Ended (Ok _) k => (List.length (toks (open_json json)) <= 2 * (k + 1))%nat
  | _ => True
  end.
Proof.
  unfold json_to_bin_with. set (c0 := JCall _ _ _). change (List.length (toks (open_json json))) with (spent c0). intros W.
  pose proof (watched_invariant (jstep E m bin) jcalling (fun n c => (spent c0 <= 2 * n + spent c)%nat) throws) as I.
  assert (St : forall n s s', (spent c0 <= 2 * n + spent s)%nat -> jstep E m bin s = Ok (inl s') -> (spent c0 <= 2 * (if jcalling s then S n else n) + spent s')%nat).
  { intros n s s' H H'. destruct s as [ext q s|s]; cbn [jstep jcalling] in *.
    - cbn [spent] in H. apply bind_Ok in H' as (c' & K & H'). assert (c' = s') by congruence. subst c'. apply jcall_spent in K. lia.
    - change (spent (JLoop s)) with (S (S (left_in s))) in H. destruct (j_stack s) as [|f rest]; [apply bind_Ok in H' as (u & _ & H'); apply bind_Ok in H' as (y & _ & H'); discriminate H'|].
      apply bind_Ok in H' as (u & _ & H'). apply bind_Ok in H' as (c' & K & H'). assert (c' = s') by congruence. subst c'. apply jadvance_spent in K. lia. }
  specialize (I St O c0 e W (le_n _)). cbv beta in I. clear St W. generalize dependent (spent c0). intros t0 I. destruct e as [r k|s k].
  - destruct r as [x|x|w]; try exact Logic.I. destruct I as (n' & s' & H & -> & Q). destruct s' as [ext q s|s]; cbn [jstep jcalling] in *.
    + apply bind_Ok in Q as (u & _ & Q). discriminate Q.
    + destruct (j_stack s); [|apply bind_Ok in Q as (u & _ & Q); apply bind_Ok in Q as (u' & _ & Q); discriminate Q].
      apply bind_Ok in Q as (u & C & _). unfold check, at_end in C. change (spent (JLoop s)) with (S (S (left_in s))) in H. unfold left_in in H. destruct (toks (j_in s)); [cbn [List.length] in H; lia|discriminate C].
  - destruct I as [H C]. destruct s as [ext q s|s]; [discriminate C|]. exists s. split; [reflexivity|]. change (spent (JLoop s)) with (S (S (left_in s))) in H. lia.
Qed.

(** ** The reorderable conversion *)
Definition frames (c : rconfig) : list rframe := match c with RCall _ _ _ s | RLoop s => r_stack s end.
Lemma robject_frames m fields f rest s c : robject m fields f rest s = Ok c -> frames c = rest \/ exists f', frames c = f' :: rest.
Proof.
  unfold robject. intros H. destruct (_ =? _); [injection H as <-; left; reflexivity|]. destruct (nthz fields _) as [[x q]|]; [|discriminate H]. destruct (rf_value f); try discriminate H.
  destruct (ofind x l) as [y|]; apply bind_Ok in H as (u & _ & H); [injection H as <-; right; eexists; reflexivity|]. apply bind_Ok in H as (u' & _ & H). injection H as <-. right. eexists. reflexivity.
Qed.
Lemma rarray_frames q f rest s c : rarray q f rest s = Ok c -> frames c = rest \/ exists f', frames c = f' :: rest.
Proof.
  unfold rarray. intros H. destruct (rf_value f); try discriminate H. destruct (_ =? _); [injection H as <-; left; reflexivity|]. destruct (nthz l _); [|discriminate H]. injection H as <-. right. eexists. reflexivity.
Qed.
Lemma rcall_frames E m ext p x s c : rcall E m ext p x s = Ok c -> frames c = r_stack s \/ exists f', frames c = f' :: r_stack s.
Proof.
  unfold rcall. intros H. apply bind_Ok in H as (d & _ & H).
  assert (Str : forall b, match x with JStr t => let* o := scalar_write E b t (r_out s) in Ok (RLoop (RSt o (r_stack s) (r_skip s))) | _ => Err E_expected_string end = Ok c -> frames c = r_stack s).
  { intros b Q. destruct x; try discriminate Q. apply bind_Ok in Q as (o & _ & Q). injection Q as <-. reflexivity. }
  destruct d; try discriminate H.
  - left. destruct b; try exact (Str _ H). destruct x; try discriminate H. apply bind_Ok in H as (o & _ & H). injection H as <-. reflexivity.
  - left. destruct x; injection H as <-; reflexivity.
  - left. injection H as <-. reflexivity.
  - destruct x; try discriminate H. apply bind_Ok in H as (o & _ & H). apply rarray_frames in H. exact H.
  - destruct x; try discriminate H. apply robject_frames in H. exact H.
  - destruct x as [| | | |[|[] [|y [|]]]|]; try discriminate H. injection H as <-. right. eexists. reflexivity.
Qed.
Lemma radvance_frames m f rest s c : radvance m f rest s = Ok c -> frames c = rest \/ exists f', frames c = f' :: rest.
Proof.
  unfold radvance. intros H. apply bind_Ok in H as (d & _ & H). destruct d; try discriminate H; [now apply rarray_frames in H|now apply robject_frames in H|].
  destruct (rf_value f) as [| | | |[|[] [|y [|]]]|]; try discriminate H. destruct (_ =? 0); [|injection H as <-; left; reflexivity].
  destruct (find_name _ _ _) as [[i q]|]; [|discriminate H]. apply bind_Ok in H as (o & _ & H). injection H as <-. right. eexists. reflexivity.
Qed.
(** The bottom of the stack is the outermost array. *)
Definition bottom (p : bytes) (l : list jv) (n : nat) (k : list rframe) : Prop := exists k' e pos, k = k' ++ [RF p e (JArr l) pos] /\ pos <= Z.of_nat n.
Lemma bottom_push p l n f k : bottom p l n k -> bottom p l n (f :: k).
Proof. intros (k' & e & pos & -> & H). exists (f :: k'), e, pos. auto. Qed.
Lemma bottom_S p l n k : bottom p l n k -> bottom p l (S n) k.
Proof. intros (k' & e & pos & -> & H). exists k', e, pos. split; [reflexivity|lia]. Qed.
Definition rinv (p : bytes) (l : list jv) (bin : bytes) (n : nat) (c : rconfig) : Prop :=
  (c = RCall true p (JArr l) (RSt bin [] false) /\ n = 0%nat) \/ bottom p l n (frames c) \/ (exists s, c = RLoop s /\ r_stack s = [] /\ (List.length l <= n)%nat).
Lemma rarray_bottom q p ext l pos s c n : pos + 1 <= Z.of_nat n -> rarray q (RF p ext (JArr l) pos) [] s = Ok c -> bottom p l n (frames c) \/ exists s', c = RLoop s' /\ r_stack s' = [] /\ (List.length l <= n)%nat.
Proof.
  intros Hp H. unfold rarray in H. cbn [rf_value rf_pos rf_type rf_ext] in H. destruct (_ =? _) eqn:B.
  - apply Z.eqb_eq in B. injection H as <-. right. eexists. split; [reflexivity|]. split; [reflexivity|lia].
  - destruct (nthz l _); [|discriminate H]. injection H as <-. left. exists [], ext, (pos + 1). split; [reflexivity|lia].
Qed.
Lemma reorderable_items E m throws p q l bin r k : afind p m = Some (AArray q) ->
  watched (rstep E m) rcalling throws 0 (RCall true p (JArr l) (RSt bin [] false)) (Ended (Ok r) k) -> (List.length l <= k)%nat.
Proof.
  intros A W. pose proof (watched_invariant (rstep E m) rcalling (rinv p l bin) throws) as I. lapply I.
  2: { intros n c c' H Q. destruct H as [[-> ->]|[H|(s & -> & Es & H)]].
       - cbn [rstep rcalling] in *. apply bind_Ok in Q as (c1 & K & Q). assert (c1 = c') by congruence. subst c1. unfold rcall, deref in K. rewrite A in K. cbn [bind] in K. apply bind_Ok in K as (o & _ & K).
         right. eapply rarray_bottom; [|exact K]. lia.
       - right. destruct c as [ext p' x s|s]; cbn [rstep rcalling frames] in *.
         + left. apply bind_Ok in Q as (c1 & K & Q). assert (c1 = c') by congruence. subst c1. apply rcall_frames in K as [->|(f' & ->)]; [exact H|now apply bottom_push].
         + destruct H as (k' & e & pos & Ek & Hp). destruct (r_stack s) as [|f rest] eqn:Es; [destruct k'; discriminate Ek|].
           apply bind_Ok in Q as (c1 & K & Q). assert (c1 = c') by congruence. subst c1. destruct k' as [|f0 k'].
           * cbn [app] in Ek. injection Ek as -> ->. unfold radvance, deref in K. cbn [rf_type] in K. rewrite A in K. cbn [bind] in K. eapply rarray_bottom; [|exact K]. lia.
           * cbn [app] in Ek. injection Ek as -> ->. left. assert (Bt : bottom p l (S n) (k' ++ [RF p e (JArr l) pos])) by (exists k', e, pos; split; [reflexivity|lia]).
             apply radvance_frames in K as [->|(f' & ->)]; [exact Bt|now apply bottom_push].
       - cbn [rstep] in Q. rewrite Es in Q. discriminate Q. }
  intros I'. specialize (I' O _ _ W). lapply I'; [|left; auto]. cbv beta iota. intros (n' & c & H & -> & Q). destruct H as [[-> ->]|[H|(s & -> & Es & H)]].
  - cbn [rstep] in Q. apply bind_Ok in Q as (u & _ & Q). discriminate Q.
  - destruct c as [ext p' x s|s]; cbn [rstep rcalling frames] in *; [apply bind_Ok in Q as (u & _ & Q); discriminate Q|]. destruct H as (k' & e & pos & Ek & Hp). destruct (r_stack s) as [|f rest]; [destruct k'; discriminate Ek|].
    apply bind_Ok in Q as (u & _ & Q). discriminate Q.
  - cbn [rcalling]. rewrite Es. exact H.
Qed.
