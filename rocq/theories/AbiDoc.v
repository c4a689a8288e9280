(** * The JSON form of a value can be written (proofs for C33) *)
From Verif Require Import Base Stream StreamFacts TypedBin TypedSpec TypedBinFacts BinLemmas Decimal Hex Prop_Hex Name NameFacts Asset AssetFacts Time TimeText
  Base58 Keys JsonInt JsonIntFacts Prop_JsonInt Utf8 Json JsonSpec JsonStrFacts JsonWrite JsonPrint Abi AbiSpec AbiScalar AbiScalarFacts AbiValue.

Lemma bytes_simple s : simple s -> bytes_ok s.
Proof. intros H. eapply Forall_impl; [|exact H]. cbv beta. unfold is_byte. intros; lia. Qed.
Lemma bytes_app a b : bytes_ok a -> bytes_ok b -> bytes_ok (a ++ b).
Proof. intros. apply Forall_app. auto. Qed.
Lemma base58_nth_ok n : is_byte (nth n base58_array 0).
Proof.
  destruct (Nat.lt_ge_cases n (List.length base58_array)) as [L|L].
  - assert (B : bytes_ok base58_array) by (apply bytes_okb_spec; vm_compute; reflexivity).
    unfold bytes_ok in B. rewrite Forall_forall in B. apply B. now apply nth_In.
  - rewrite nth_overflow by exact L. unfold is_byte. lia.
Qed.
Lemma push_base58_ok f : forall c, bytes_ok (push_base58 f c).
Proof. induction f as [|f IH]; intros c; cbn [push_base58]; [constructor|]. destruct (c =? 0); [constructor|]. constructor; [apply base58_nth_ok|apply IH]. Qed.
Lemma mul256_ok r : forall c, bytes_ok (mul256_add c r).
Proof. induction r as [|x r IH]; intros c; cbn [mul256_add]; [apply push_base58_ok|]. cbv zeta. constructor; [apply base58_nth_ok|apply IH]. Qed.
Lemma base58_out_ok bin : forall r, bytes_ok r -> bytes_ok (fold_left (fun r b => mul256_add b r) bin r).
Proof. induction bin as [|b bin IH]; intros r H; cbn [fold_left]; [exact H|]. apply IH. apply mul256_ok. Qed.
Lemma base58_text_ok bin : bytes_ok (binary_to_base58 bin).
Proof.
  unfold binary_to_base58. apply Forall_rev. apply Forall_app. split; [apply base58_out_ok; constructor|].
  apply Forall_forall. intros x H. apply repeat_spec in H. subst x. unfold is_byte. lia.
Qed.
Lemma key_text_ok t k sf p s : bytes_ok p -> key_to_string t k sf p = Ok s -> bytes_ok s.
Proof.
  intros Hp H. unfold key_to_string in H. apply bind_Ok in H as (w & _ & H). apply bind_Ok in H as (d & _ & H). cbv zeta in H.
  assert (s = p ++ binary_to_base58 (skipn 1 (w ++ firstn 4 d))) by congruence. subst s. apply bytes_app; [exact Hp|apply base58_text_ok].
Qed.
Lemma decn_simple k v : simple (decn k v).
Proof. apply simple_digits, decn_digits. Qed.
Lemma time_text_ok m us s : microseconds_to_str m us = Ok s -> bytes_ok s.
Proof.
  unfold microseconds_to_str. cbv zeta. destruct (from_days _) as [[y mo] d]. intros H. apply bind_Ok in H as (x & _ & H).
  assert (U : forall v k, bytes_ok (append_uint v k)).
  { intros v k. unfold append_uint. rewrite append_uint_decn, app_nil_r. apply bytes_simple, decn_simple. }
  assert (T : forall c, 0 <= c < 256 -> bytes_ok [c]) by (intros; repeat constructor; unfold is_byte; lia).
  match type of H with Ok ?z = Ok s => assert (s = z) by congruence end. subst s. clear H.
  repeat (apply bytes_app; [first [apply U|apply T; vm_compute; split; congruence]|]). apply U.
Qed.
Lemma symbol_code_text_ok f : forall v, bytes_ok (symbol_code_to_string_loop f v).
Proof.
  induction f as [|f IH]; intros v; cbn [symbol_code_to_string_loop]; [constructor|]. destruct (0 <? v); [|constructor]. constructor; [|apply IH].
  unfold is_byte. change 255 with (Z.ones 8). rewrite Z.land_ones by lia. apply Z.mod_pos_bound. lia.
Qed.
Lemma asset_int_ok f : forall u acc s, 0 <= u -> bytes_ok acc -> asset_int f u acc = Ok s -> bytes_ok s.
Proof.
  induction f as [|f IH]; intros u acc s Hu Ha H; cbn [asset_int] in H; [discriminate|]. cbv zeta in H.
  assert (bytes_ok (acc ++ [48 + u mod 10])). { apply bytes_app; auto. repeat constructor; unfold is_byte; lia. }
  destruct (u / 10 =? 0); [assert (s = acc ++ [48 + u mod 10]) by congruence; now subst s|]. eapply IH; [|eassumption|exact H]. apply Z.div_pos; lia.
Qed.
Lemma asset_text_ok a s t : - 2 ^ 63 <= a < 2 ^ 63 -> asset_to_string a s = Ok t -> bytes_ok t.
Proof.
  intros R H. unfold asset_to_string in H. apply bind_Ok in H as (u & Hu & H).
  assert (U : 0 <= u). { revert Hu. destruct (Z.ltb_spec a 0); [destruct (a =? - 2 ^ 63); [discriminate|]|]; intros; first [assert (u = - a) by congruence|assert (u = a) by congruence]; lia. }
  clear Hu. cbv zeta in H.
  assert (K : exists u' r, 0 <= u' /\ bytes_ok r /\ (if s mod 256 =? 0 then (u, []) else let (u0, r) := asset_fraction (Z.to_nat (s mod 256)) u [] in (u0, r ++ [46])) = (u', r)).
  { destruct (s mod 256 =? 0); [exists u, []; repeat split; [exact U|constructor]|]. rewrite asset_fraction_spec by exact U.
    eexists _, _. split; [|split; [|reflexivity]].
    - apply Z.div_pos; [lia|]. apply Z.pow_pos_nonneg; lia.
    - cbn [app]. apply bytes_app; [|repeat constructor; unfold is_byte; lia]. apply Forall_rev. apply bytes_simple, decn_simple. }
  destruct K as (u' & r & U' & Br & EQ). rewrite EQ in H. apply bind_Ok in H as (x & Hx & H). apply asset_int_ok in Hx; auto.
  match type of H with Ok ?z = Ok t => assert (t = z) by congruence end. subst t.
  apply bytes_app; [|apply Forall_app; split; [repeat constructor; unfold is_byte; lia|apply symbol_code_text_ok]]. apply Forall_rev.
  destruct (a <? 0); auto. apply bytes_app; auto. repeat constructor; unfold is_byte; lia.
Qed.
Lemma int_number z : number_fits (int_notation z).
Proof.
  assert (D : forall v, 0 <= v -> int_part (dec v)).
  { intros v Hv. unfold int_part. destruct (Z.eq_dec v 0) as [->|N]; [left; reflexivity|]. right.
    destruct (dec v) as [|c d] eqn:EQ; [exfalso; revert EQ; apply dec_nonempty; lia|]. exists c, d. split; [reflexivity|].
    assert (F : Forall (fun c => 48 <= c <= 57) (c :: d)).
    { rewrite <- EQ. pose proof (dec_digits v Hv) as DD. rewrite forallb_forall in DD. apply Forall_forall. intros x Hx. apply DD in Hx. unfold is_digit in Hx. lia. }
    apply Forall_cons_iff in F as [F1 F2]. split; [|exact F2].
    destruct (dec_spec v Hv) as (_ & _ & _ & _ & L). destruct L as (c' & d' & EQ' & L); [lia|]. assert (c = c') by congruence. lia. }
  assert (X : forall i, exponent_fits i [] []) by (intros i c sg d H; discriminate).
  unfold int_notation. destruct (Z.ltb_spec z 0).
  - exists [45], (dec (- z)), [], []. split; [|exact (X _)]. split; [now rewrite !app_nil_r|]. split; [auto|]. split; [apply D; lia|]. split; left; reflexivity.
  - exists [], (dec z), [], []. split; [|exact (X _)]. split; [now rewrite !app_nil_r|]. split; [auto|]. split; [apply D; lia|]. split; left; reflexivity.
Qed.

Lemma jstr_writable r j : (forall s, r = Ok s -> bytes_ok s) -> jstr r = Ok j -> writable j.
Proof. intros H J. unfold jstr in J. apply bind_Ok in J as (s & Hs & J). assert (j = JStr s) by congruence. subst j. constructor. auto. Qed.
Lemma bstr s : forallb is_byteb (str s) = true -> bytes_ok (str s).
Proof. intros H. now apply bytes_okb_spec. Qed.
Lemma scalar_writable E b v j : scalar_ok b v -> scalar_jv E b v = Ok j -> writable j.
Proof.
  unfold scalar_ok. intros H J.
  assert (K : forall t k sf p s, forallb is_byteb p = true -> key_to_string t k sf p = Ok s -> bytes_ok s).
  { intros t k sf p s Hp Hs. eapply key_text_ok; [|exact Hs]. now apply bytes_okb_spec. }
  assert (Fl : forall n m x, wf key_env 0 (TFloat n) (VFloat m x) = true -> float_jv n x = Ok j -> writable j).
  { intros n m x W JJ. destruct (float_range _ _ _ W) as [N R]. pose proof (float_jv_cases n x N R) as C. rewrite JJ in C.
    destruct C as [->|[->|[->|(t & -> & NF & _)]]]; constructor; try exact NF; apply bstr; reflexivity. }
  destruct b; cbn [scalar_ty] in H; destruct v; try discriminate H; cbn [scalar_jv] in J;
    try (match type of J with Ok (JNum _) = Ok j => assert (W : j = JNum (int_notation z)) by congruence; subst j; constructor; apply int_number end);
    try (match type of J with Ok (JStr (int_notation _)) = Ok j => assert (W : j = JStr (int_notation z)) by congruence; subst j; constructor; apply bytes_simple, simple_int end);
    try (match type of J with Ok (JStr (hex (map byte_of ?l))) = Ok j => assert (W : j = JStr (hex (map byte_of l))) by congruence; subst j; constructor;
                      destruct (fixed_ok _ _ H) as (_ & B & _); apply bytes_simple, simple_hex; exact B end);
    try (eapply Fl; [exact H|exact J]).
  - assert (j = JBool b) by congruence. subst j. constructor.
  - eapply jstr_writable; [|exact J]. intros s Hs. eapply time_text_ok. exact Hs.
  - eapply jstr_writable; [|exact J]. intros s Hs. eapply time_text_ok. exact Hs.
  - eapply jstr_writable; [|exact J]. intros s Hs. eapply time_text_ok. exact Hs.
  - assert (j = JStr (name_to_string z)) by congruence. subst j. constructor. apply name_to_string_ok.
    cbn [wf wf_with] in H. apply int_range in H. unfold tmin, tmax, tbits in H. change (8 * Z.of_nat 8) with 64 in H. lia.
  - assert (j = JStr (hex s)) by congruence. subst j. constructor. apply bytes_simple, simple_hex.
    cbn [wf wf_with] in H. apply andb_true_iff in H as [H _]. now apply bytes_okb_spec.
  - assert (j = JStr s) by congruence. subst j. constructor.
    cbn [wf wf_with] in H. apply andb_true_iff in H as [H _]. now apply bytes_okb_spec.
  - eapply jstr_writable; [|exact J]. intros s Hs. unfold public_key_to_string in Hs.
    destruct (_ =? 0); [eapply K; [|exact Hs]; reflexivity|]. destruct (_ =? 1); [eapply K; [|exact Hs]; reflexivity|]. destruct (_ =? 2); [eapply K; [|exact Hs]; reflexivity|discriminate].
  - eapply jstr_writable; [|exact J]. intros s Hs. unfold private_key_to_string in Hs.
    destruct (_ =? 0); [eapply K; [|exact Hs]; reflexivity|]. destruct (_ =? 1); [eapply K; [|exact Hs]; reflexivity|discriminate].
  - eapply jstr_writable; [|exact J]. intros s Hs. unfold signature_to_string in Hs.
    destruct (_ =? 0); [eapply K; [|exact Hs]; reflexivity|]. destruct (_ =? 1); [eapply K; [|exact Hs]; reflexivity|]. destruct (_ =? 2); [eapply K; [|exact Hs]; reflexivity|discriminate].
  - assert (j = JStr (symbol_to_string z)) by congruence. subst j. constructor. unfold symbol_to_string.
    apply bytes_app; [apply bytes_simple, simple_dec; apply Z.land_nonneg; lia|]. apply bytes_app; [repeat constructor; unfold is_byte; lia|]. apply symbol_code_text_ok.
  - assert (j = JStr (symbol_code_to_string z)) by congruence. subst j. constructor. apply symbol_code_text_ok.
  - destruct l as [|[z| | | | | |] [|[z'| | | | | |] [|? ?]]]; try (cbn in H; rewrite ?andb_false_r in H; discriminate H).
    cbn [wf wf_with map forallb2] in H. apply andb_true_iff in H as [H1 H2]. apply int_range in H1.
    unfold tmin, tmax, tbits in H1. change (8 * Z.of_nat 8 - 1) with 63 in H1.
    eapply jstr_writable; [|exact J]. intros s Hs. eapply asset_text_ok; [|exact Hs]. lia.
Qed.

(** The names of fields and alternatives are strings of bytes. *)
Definition names_ok (m : amap) : Prop := forall p fs, afind p m = Some (AStruct fs) \/ afind p m = Some (AVariant fs) ->
  Forall (fun f => bytes_ok (fst f)) fs.
Lemma nthz_in {A} (l : list A) : forall i x, nthz l i = Some x -> In x l.
Proof. induction l as [|y l IH]; intros i x H; [discriminate|]. cbn [nthz] in H. destruct (i =? 0); [left; congruence|right; eauto]. Qed.
Lemma shows_writable E m : names_ok m ->
  (forall k ext p v j, shows E m k ext p v j -> writable j) /\
  (forall k q l js, shows_items E m k q l js -> Forall writable js) /\
  (forall k ext fs l js, shows_fields E m k ext fs l js -> Forall (fun f => bytes_ok (fst f)) fs -> Forall (fun x => bytes_ok (fst x) /\ writable (snd x)) js).
Proof.
  intros N. apply shows_mutind; intros; auto; try (constructor; auto; fail).
  - eapply scalar_writable; eauto.
  - constructor. apply H1. eapply N; eauto.
  - constructor. constructor; [|auto]. constructor. assert (F := N p fs (or_intror H)). rewrite Forall_forall in F. apply (F (name, q)). eapply nthz_in; eauto.
  - apply Forall_cons_iff in H3 as [F1 F2]. constructor; auto.
Qed.
