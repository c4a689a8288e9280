(** * Facts about keys as text *)
From Verif Require Import Base Stream StreamFacts TypedBin TypedSpec TypedBinFacts BinLemmas Base58 Base58Facts Ripemd160 RipemdSpec Prop_Ripemd Keys.

Definition short (s : bytes) : Prop := Z.of_nat (List.length s) < 2 ^ 30.
Lemma beq_spec a b : beq a b = if list_eq_dec Z.eq_dec a b then true else false.
Proof. destruct (list_eq_dec Z.eq_dec a b) as [H|H]; [apply beq_eq|apply beq_neq]; auto. Qed.

(** ** Length of decoded text *)
Lemma mul58_len r : forall c, (List.length (mul58_add c r) <= List.length r + 1)%nat.
Proof. induction r as [|b r IH]; intros c; cbn [mul58_add]; [destruct (c =? 0); cbn; lia|]. cbv zeta. cbn [List.length]. specialize (IH (Z.shiftr (b * 58 + c) 8)). lia. Qed.
Lemma digits_in_len s : forall r x, base58_digits_in s r = Ok x -> (List.length x <= List.length r + List.length s)%nat.
Proof.
  induction s as [|c s IH]; intros r x H; [injection H as <-; lia|]. cbn [base58_digits_in] in H. cbv zeta in H. apply bind_Ok in H as [[] [_ H]].
  apply IH in H. pose proof (mul58_len r (base58_map c)). cbn [List.length]. lia.
Qed.
Lemma leading_len x s : (leading x s <= List.length s)%nat.
Proof. induction s as [|c s IH]; cbn [leading List.length]; [lia|]. destruct (c =? x); lia. Qed.
Lemma decoded_len s b : base58_to_binary s = Ok b -> (List.length b <= 2 * List.length s)%nat.
Proof.
  unfold base58_to_binary. intros H. apply bind_Ok in H as [r [E H]]. apply digits_in_len in E. injection H as <-.
  rewrite rev_length, app_length, repeat_length. pose proof (leading_len 49 s). cbn [List.length] in E. lia.
Qed.

(** A checked key text body: what follows the prefix. *)
Definition checked_body (t : ty) (i : Z) (suffix body : bytes) (k : val) : Prop :=
  exists data chk, from_base58 body = Ok (data ++ chk) /\ data <> [] /\ List.length chk = 4%nat /\
    chk = firstn 4 (RIPEMD160 (data ++ suffix)) /\ convert_from_bin key_env 0 t (i :: data) = Ok k.
Lemma string_to_key_iff t s i suffix k : short s -> short suffix ->
  string_to_key t s i suffix = Ok k <-> checked_body t i suffix s k.
Proof.
  intros Hs Hsuf. unfold string_to_key, checked_body, from_base58.
  destruct (base58_to_binary s) as [d|e|w] eqn:Ed; cbn [bind]; [|split; [discriminate|intros (? & ? & ? & _); discriminate]..].
  pose proof (decoded_len s d Ed) as Hd. unfold short in *. cbv zeta. change (skipn 1 (i :: d)) with d.
  assert (G : forall data chk, d = data ++ chk -> List.length chk = 4%nat -> data <> [] ->
    (let* _ := check (Nat.ltb 5 (List.length (i :: d))) E_expected_key in
     let* ripe_digest := digest_suffix_ripemd160 (firstn (List.length (i :: d) - 5) d) suffix in
     let* _ := check (beq (firstn 4 ripe_digest) (firstn 4 (skipn (List.length (i :: d) - 4) (i :: d)))) E_expected_key in
     convert_from_bin key_env 0 t (firstn (List.length (i :: d) - 4) (i :: d))) =
    let* _ := check (beq (firstn 4 (RIPEMD160 (data ++ suffix))) chk) E_expected_key in convert_from_bin key_env 0 t (i :: data)).
  { intros data chk E Hc Hn. assert (L : List.length d = (List.length data + 4)%nat) by (rewrite E, app_length; lia).
    assert (Ln : (1 <= List.length data)%nat) by (destruct data; [congruence|cbn; lia]).
    cbn [List.length]. rewrite L. destruct (Nat.ltb 5 (S (List.length data + 4))) eqn:El; [|apply Nat.ltb_ge in El; lia]. cbn [check bind].
    replace (S (List.length data + 4) - 5)%nat with (List.length data) by lia.
    replace (S (List.length data + 4) - 4)%nat with (S (List.length data)) by lia. rewrite firstn_cons, skipn_cons.
    rewrite E, firstn_app, firstn_all, skipn_app, skipn_all, Nat.sub_diag, firstn_O, app_nil_r, skipn_O. cbn [app].
    rewrite (firstn_all2 chk) by lia. rewrite C47_digest_suffix by lia. reflexivity. }
  destruct (Nat.ltb 5 (List.length (i :: d))) eqn:El.
  - apply Nat.ltb_lt in El. cbn [List.length] in El. 
    assert (Ec : d = firstn (List.length d - 4) d ++ skipn (List.length d - 4) d) by (symmetry; apply firstn_skipn).
    cbn [check] in G. cbn [check]. rewrite (G _ _ Ec); [|rewrite skipn_length; lia|intros X; apply (f_equal (@List.length Z)) in X; rewrite firstn_length in X; cbn [List.length] in X; lia].
    unfold check. rewrite beq_spec. destruct (list_eq_dec _ _ _) as [Q|Q]; cbn [bind].
    + split.
      * intros H. exists (firstn (List.length d - 4) d), (skipn (List.length d - 4) d). split; [f_equal; exact Ec|]. split; [intros X; apply (f_equal (@List.length Z)) in X; rewrite firstn_length in X; cbn [List.length] in X; lia|].
        split; [rewrite skipn_length; lia|]. split; [symmetry; exact Q|exact H].
      * intros (data & chk & E & Hn & Hc & _ & H). assert (E' : d = data ++ chk) by congruence. 
        assert (firstn (List.length d - 4) d = data).
        { rewrite E', app_length, Hc. replace (List.length data + 4 - 4)%nat with (List.length data) by lia. rewrite firstn_app, Nat.sub_diag, firstn_O, firstn_all, app_nil_r. reflexivity. }
        congruence.
    + split; [discriminate|]. intros (data & chk & E & Hn & Hc & H1 & H). exfalso. apply Q. assert (E' : d = data ++ chk) by congruence.
      assert (X : List.length d = (List.length data + 4)%nat) by (rewrite E', app_length; lia).
      rewrite E'. rewrite app_length, Hc. replace (List.length data + 4 - 4)%nat with (List.length data) by lia.
      rewrite firstn_app, Nat.sub_diag, firstn_O, firstn_all, app_nil_r, skipn_app, skipn_all, Nat.sub_diag. cbn [skipn app]. symmetry. exact H1.
  - split; [discriminate|]. intros (data & chk & E & Hn & Hc & _). exfalso. apply Nat.ltb_ge in El. cbn [List.length] in El.
    assert (E' : d = data ++ chk) by congruence. apply (f_equal (@List.length Z)) in E'. rewrite app_length in E'. destruct data; [congruence|cbn [List.length] in E'; lia].
Qed.

(** Without the length limits: what is rejected is rejected with one of these errors or a stream error. *)
Lemma encv_small i : 0 <= i < 128 -> encv i = [i].
Proof. intros H. unfold encv. cbn [leb]. destruct (i <? 128) eqn:E; [|lia]. f_equal. Qed.
Lemma variant_bin ts i x : wf key_env 0 (TVariant ts) (VVar i x) = true -> 0 <= i < 128 ->
  exists data, convert_to_bin key_env 0 (TVariant ts) (VVar i x) [] = Ok (i :: data) /\ bytes_ok data /\
    convert_from_bin key_env 0 (TVariant ts) (i :: data) = Ok (VVar i x) /\
    (forall extra, bytes_ok extra -> convert_from_bin key_env 0 (TVariant ts) ((i :: data) ++ extra) = Ok (VVar i x)) /\
    exists f, nthz (map (enc key_env 0) ts) i = Some f /\ f x = Ok data.
Proof.
  intros H Hi. destruct (rt_bin _ _ _ _ H) as (b & Eb & Hb & Hr).
  pose proof Eb as Eb'. change (eapp (envu i) (match nthz (map (enc key_env 0) ts) i with Some f => f x | None => Undef "ill-typed value" end) = Ok b) in Eb'. unfold eapp, envu in Eb'.
  destruct ((0 <=? i) && (i <? 2 ^ 32)) eqn:Er; [|lia]. cbn [bind] in Eb'. rewrite encv_small in Eb' by auto.
  destruct (nthz (map (enc key_env 0) ts) i) as [f|] eqn:Ef; [|discriminate].
  apply bind_Ok in Eb' as [data [Ed Eb']]. cbn [app] in Eb'. injection Eb' as <-. exists data.
  rewrite convert_to_bin_eq, to_bin_vector, Eb. split; [reflexivity|]. inversion Hb; subst. split; auto.
  unfold convert_from_bin. split; [|split; [|eauto]].
  - specialize (Hr [] bytes_ok_nil). rewrite app_nil_r in Hr. now rewrite Hr.
  - intros extra He. now rewrite Hr.
Qed.
Lemma key_text t i x suffix prefix : 0 <= i < 128 -> (exists ts, t = TVariant ts) -> wf key_env 0 t (VVar i x) = true ->
  (forall bin, convert_to_bin key_env 0 t (VVar i x) [] = Ok bin -> (1 < List.length bin)%nat /\ Z.of_nat (List.length bin) <= 2 ^ 31) ->
  short suffix ->
  exists body, key_to_string t (VVar i x) suffix prefix = Ok (prefix ++ body) /\ bytes_ok body /\ forallb is_base58 body = true /\
    string_to_key t body i suffix = Ok (VVar i x).
Proof.
  intros Hi [ts ->] Hw Hl Hs. destruct (variant_bin ts i x Hw Hi) as (data & Eb & Hd & Hf & _ & _).
  destruct (Hl _ Eb) as [H1 H2]. cbn [List.length] in H1, H2. unfold short in Hs.
  unfold key_to_string. rewrite Eb. cbn [bind skipn app]. rewrite C47_digest_suffix by lia. cbn [bind]. cbv zeta.
  destruct (C47_digest_size (data ++ suffix)) as [D1 D2]. remember (firstn 4 (RIPEMD160 (data ++ suffix))) as chk eqn:Ec.
  assert (Lc : List.length chk = 4%nat) by (rewrite Ec, firstn_length; lia).
  assert (Hc : bytes_ok chk). { rewrite Ec. rewrite <- (firstn_skipn 4) in D2. apply bytes_ok_app in D2. apply D2. }
  assert (Hdc : bytes_ok (data ++ chk)) by (apply bytes_ok_app; auto).
  change (skipn 1 (i :: data ++ chk)) with (data ++ chk). change ((i :: data) ++ chk) with (i :: (data ++ chk)). cbn [skipn].
  exists (binary_to_base58 (data ++ chk)). destruct (base58_roundtrip _ Hdc) as (R1 & R2 & R3).
  split; [reflexivity|]. split; [exact R1|]. split; [exact R2|].
  unfold string_to_key. rewrite R3. cbn [bind]. cbv zeta. change (skipn 1 (i :: data ++ chk)) with (data ++ chk).
  assert (L : List.length (i :: data ++ chk) = (List.length data + 5)%nat) by (cbn [List.length]; rewrite app_length; lia). rewrite L.
  destruct (Nat.ltb 5 (List.length data + 5)) eqn:El; [|apply Nat.ltb_ge in El; lia]. cbn [check bind].
  replace (List.length data + 5 - 5)%nat with (List.length data) by lia.
  replace (List.length data + 5 - 4)%nat with (S (List.length data)) by lia. rewrite firstn_cons, skipn_cons.
  rewrite firstn_app, firstn_all, skipn_app, skipn_all, Nat.sub_diag, firstn_O, app_nil_r, skipn_O. cbn [app].
  rewrite C47_digest_suffix by lia. cbn [bind]. rewrite <- Ec. rewrite (firstn_all2 chk) by lia.
  unfold check. rewrite beq_refl. cbn [bind]. exact Hf.
Qed.

(** ** Sizes of key bodies *)
Lemma char_array_len ref refw n v b : enc_with ref (char_array n) v = Ok b -> wf_with refw (char_array n) v = true -> List.length b = n.
Proof.
  unfold char_array. destruct v; cbn [wf_with enc_with]; try discriminate. intros H Hw. apply andb_prop in Hw as [Hl _]. apply Nat.eqb_eq in Hl. subst n.
  revert b H. induction l as [|x l IH]; intros b H; [injection H as <-; reflexivity|]. cbn [enc_seq] in H. unfold eapp in H.
  apply bind_Ok in H as [a [Ea H]]. apply bind_Ok in H as [c [Ec H]]. injection H as <-. rewrite app_length. cbn [List.length]. rewrite (IH _ Ec).
  destruct x; try discriminate. cbn [enc_with] in Ea. injection Ea as <-. reflexivity.
Qed.
Lemma key_starts_with_array ref refw n ts v b : enc_with ref (TTuple (char_array n :: ts)) v = Ok b -> wf_with refw (TTuple (char_array n :: ts)) v = true ->
  (n <= List.length b)%nat.
Proof.
  destruct v as [| | | |l| |]; try discriminate. destruct l as [|x l]; [discriminate|]. cbn [enc_with wf_with map enc_tuple forallb2]. unfold eapp. intros H Hw.
  apply andb_prop in Hw as [Hw _]. apply bind_Ok in H as [a [Ea H]]. apply bind_Ok in H as [c [Ec H]]. injection H as <-.
  apply (char_array_len _ _ _ _ _ Ea) in Hw. rewrite app_length. lia.
Qed.
(** The alternatives: an array of [n] chars, or a struct starting with one. *)
Definition key_variant (n : nat) (rest : list ty) : ty := TVariant (char_array n :: char_array n :: rest).
Lemma ecc_bin_len n rest i x bin : (i = 0 \/ i = 1) -> wf key_env 0 (key_variant n rest) (VVar i x) = true ->
  convert_to_bin key_env 0 (key_variant n rest) (VVar i x) [] = Ok bin -> List.length bin = S n.
Proof.
  intros Hi Hw He. destruct (variant_bin _ i x Hw ltac:(lia)) as (data & Eb & _ & _ & _ & f & Ef & Ed). unfold key_variant in He; rewrite He in Eb; injection Eb as ->. cbn [List.length]. f_equal.
  pose proof Hw as Hw'. rewrite wf_unfold in Hw'. unfold key_variant in Hw'. cbn [wf_with] in Hw'. apply andb_prop in Hw' as [_ Hw'].
  unfold key_variant in Ef. assert (Ef' : f = enc key_env 0 (char_array n)) by (destruct Hi as [->| ->]; cbn in Ef; injection Ef as <-; reflexivity). subst f.
  assert (Hx : wf_with (fun (n : nat) (v : val) => false) (char_array n) x = true) by (destruct Hi as [->| ->]; exact Hw').
  rewrite enc_unfold in Ed. eapply char_array_len; eauto.
Qed.
Lemma wa_bin_len n k ts x bin : wf key_env 0 (key_variant n [TWrap k (TTuple (char_array n :: ts))]) (VVar 2 x) = true ->
  convert_to_bin key_env 0 (key_variant n [TWrap k (TTuple (char_array n :: ts))]) (VVar 2 x) [] = Ok bin -> (n < List.length bin)%nat.
Proof.
  intros Hw He. destruct (variant_bin _ 2 x Hw ltac:(lia)) as (data & Eb & _ & _ & _ & f & Ef & Ed). unfold key_variant in He; rewrite He in Eb; injection Eb as ->. cbn [List.length].
  pose proof Hw as Hw'. rewrite wf_unfold in Hw'. unfold key_variant in Hw'. cbn [wf_with] in Hw'. apply andb_prop in Hw' as [_ Hw'].
  unfold key_variant in Ef. cbn [nthz map] in Ef. 
  assert (Ef' : f = enc key_env 0 (TWrap k (TTuple (char_array n :: ts)))) by (cbn in Ef; injection Ef as <-; reflexivity). subst f.
  rewrite enc_unfold in Ed. cbn [enc_with] in Ed.
  assert (Hx : wf_with (fun (n : nat) (v : val) => false) (TTuple (char_array n :: ts)) x = true) by exact Hw'.
  pose proof (key_starts_with_array _ _ n ts x data Ed Hx). lia.
Qed.

Lemma nthz_range {A} (l : list A) : forall i f, 0 <= i -> nthz l i = Some f -> i < Z.of_nat (List.length l).
Proof.
  induction l as [|x l IH]; intros i f Hi H; [discriminate|]. cbn [nthz] in H. cbn [List.length]. destruct (i =? 0) eqn:E; [lia|].
  assert (i - 1 < Z.of_nat (List.length l)) by (apply (IH (i - 1) f); [lia|exact H]). lia.
Qed.
Lemma variant_index ts i x : wf key_env 0 (TVariant ts) (VVar i x) = true -> 0 <= i < Z.of_nat (List.length ts).
Proof.
  cbn [wf wf_with]. intros H. apply andb_prop in H as [H1 H2]. unfold fits_u in H1.
  destruct (nthz (map _ ts) i) as [f|] eqn:En; [|discriminate]. apply nthz_range in En; [|lia]. rewrite map_length in En. lia.
Qed.
