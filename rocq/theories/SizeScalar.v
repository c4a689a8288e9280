(** * SizeScalar: sizes of the text and of the bytes of one built-in value (proofs only, for C61) *)
From Verif Require Import Base Stream StreamFacts TypedBin TypedSpec TypedBinFacts TypedBinLocal BinLemmas Hex Name Asset Time Base58 Base58Facts Keys KeysFacts Prop_Keys JsonInt Json JsonSpec Abi Fpconv AbiScalar AbiScalarFacts Prop_Hex.

Notation len := List.length.

(** ** Bytes read and bytes written again *)
Definition grows (f : istream -> res (val * istream)) (g : val -> res bytes) : Prop :=
  forall bs v r b, bytes_ok bs -> f bs = Ok (v, r) -> g v = Ok b -> exists c, bs = c ++ r /\ (len b <= 5 * len c)%nat.
Lemma vu_nonempty f bits limit dest shift s z r : varuint_from_bin_loop f bits limit dest shift s = Ok (z, r) -> exists c, s = c ++ r /\ (1 <= len c)%nat.
Proof.
  revert dest shift s. induction f as [|f IH]; intros dest shift s H; [discriminate|]. cbn [varuint_from_bin_loop] in H. apply bind_Ok in H as (? & _ & H).
  destruct s as [|b s]; [discriminate|]. cbn [read_u8 bind] in H. destruct (negb _).
  - apply IH in H as (c & -> & L). exists (b :: c). split; [reflexivity|cbn [len]; lia].
  - assert (s = r) by congruence. subst r. exists [b]. split; [reflexivity|cbn; lia].
Qed.
Lemma envu_len5 z b : envu z = Ok b -> (len b <= 5)%nat.
Proof. unfold envu. destruct (_ && _); [|discriminate]. intros H. assert (b = encv z) by congruence. subst b. apply encv_len. Qed.
Lemma sread_split s n b r : sread s n = Ok (b, r) -> s = b ++ r /\ (0 <= n -> Z.of_nat (len b) = n).
Proof.
  unfold sread, check. destruct (Z.leb_spec n (Z.of_nat (len s))) as [H|H]; [|discriminate]. cbn [bind]. intros Q.
  assert (b = firstn (Z.to_nat n) s /\ r = skipn (Z.to_nat n) s) as [-> ->] by (split; congruence). rewrite firstn_skipn, firstn_length. split; [reflexivity|]. lia.
Qed.
Lemma eapp_Ok a b x : eapp a b = Ok x -> exists y z, a = Ok y /\ b = Ok z /\ x = y ++ z.
Proof. unfold eapp. intros H. apply bind_Ok in H as (y & -> & H). apply bind_Ok in H as (z & -> & H). exists y, z. repeat split. congruence. Qed.
Lemma grows_int rf re sg n : grows (from_bin_with rf (TInt sg n)) (enc_with re (TInt sg n)).
Proof.
  intros bs v r b _ H G. cbn [from_bin_with] in H. apply bind_Ok in H as ([c s] & S & H). apply sread_split in S as [-> L]. assert (s = r) by congruence. subst s.
  exists c. split; [reflexivity|]. assert (v = of_raw (TInt sg n) c) by congruence. subst v. destruct sg; cbn [of_raw enc_with] in G.
  all: match type of G with Ok ?y = _ => assert (b = y) by congruence; subst b end; rewrite le_bytes_length; lia.
Qed.
Lemma grows_list f g n : grows f g -> forall bs l r b, bytes_ok bs -> read_list f n bs = Ok (l, r) -> enc_seq g l = Ok b -> exists c, bs = c ++ r /\ (len b <= 5 * len c)%nat.
Proof.
  intros G. induction n as [|n IH]; intros bs l r b B H Eb; cbn [read_list] in H.
  - assert (l = [] /\ bs = r) as [-> ->] by (split; congruence). exists []. split; [reflexivity|]. cbn in Eb. assert (b = []) by congruence. subst b. cbn. lia.
  - apply bind_Ok in H as ([x s] & F & H). apply bind_Ok in H as ([l' s'] & R & H). assert (l = x :: l' /\ s' = r) as [-> ->] by (split; congruence).
    cbn [enc_seq] in Eb. apply eapp_Ok in Eb as (y & z & Ey & Ez & ->). destruct (G _ _ _ _ B F Ey) as (c & -> & L). apply bytes_ok_app in B as [_ B]. destruct (IH _ _ _ _ B R Ez) as (c' & -> & L').
    exists (c ++ c'). rewrite app_assoc, !app_length. split; [reflexivity|lia].
Qed.
Lemma grows_arr rf re n t : grows (from_bin_with rf t) (enc_with re t) -> grows (from_bin_with rf (TArr n t)) (enc_with re (TArr n t)).
Proof.
  intros G bs v r b B H Eb. cbn [from_bin_with] in H. apply bind_Ok in H as ([l s] & R & H). assert (v = VList l /\ s = r) as [-> ->] by (split; congruence).
  cbn [enc_with] in Eb. exact (grows_list _ _ n G _ _ _ _ B R Eb).
Qed.
Lemma grows_string rf re : grows (from_bin_with rf TString) (enc_with re TString).
Proof.
  intros bs v r b _ H Eb. cbn [from_bin_with] in H. apply bind_Ok in H as ([n s] & V & H). apply bind_Ok in H as ([d s'] & S & H).
  assert (v = VStr d /\ s' = r) as [-> ->] by (split; congruence). cbn [enc_with] in Eb. apply eapp_Ok in Eb as (y & z & Ey & Ez & ->). assert (z = d) by congruence. subst z.
  apply vu_nonempty in V as (c & -> & L). apply sread_split in S as [-> _]. apply envu_len5 in Ey. exists (c ++ d). rewrite app_assoc, !app_length. split; [reflexivity|lia].
Qed.
Lemma cut_len t w n b : len (cut t w n b) = n.
Proof. revert b. induction n as [|n IH]; intros b; cbn [cut len]; [reflexivity|]. now rewrite IH. Qed.
Lemma raws_len1 sg l b : raws (TInt sg 1) l = Ok b -> len b = len l.
Proof.
  revert b. induction l as [|v l IH]; intros b H; cbn [raws] in H; [assert (b = []) by congruence; subst b; reflexivity|].
  apply bind_Ok in H as (x & Hx & H). apply bind_Ok in H as (y & Hy & H). assert (b = x ++ y) by congruence. subst b. rewrite app_length, (IH y Hy). cbn [len].
  destruct v; try discriminate Hx. cbn [raw_bytes] in Hx. match type of Hx with Ok ?y = _ => assert (x = y) by congruence; subst x end. rewrite le_bytes_length. lia.
Qed.
Lemma vu64_nonneg s n r : varuint64_from_bin s = Ok (n, r) -> bytes_ok s -> 0 <= n < 2 ^ 64.
Proof. intros H B. rewrite varuint64_from_bin_eq in H by exact B. apply bind_Ok in H as ([l r'] & _ & H). assert (n = leb_value l mod 2 ^ 64) by congruence. subst n. apply Z.mod_pos_bound. lia. Qed.

Lemma grows_bytes rf re sg : grows (from_bin_with rf (TVec (TInt sg 1))) (enc_with re (TVec (TInt sg 1))).
Proof.
  intros bs v r b B H Eb. cbn [from_bin_with bitwise_size Z.of_nat] in H. change (Z.of_nat 1) with 1 in H. apply bind_Ok in H as ([n s] & V & H). pose proof (vu64_nonneg _ _ _ V B) as R.
  rewrite Z.mul_1_r, Z.mod_small in H by exact R. apply bind_Ok in H as (? & _ & H). apply bind_Ok in H as (? & _ & H). apply bind_Ok in H as ([d s'] & S & H).
  apply sread_split in S as [-> L]. specialize (L (proj1 R)). apply vu_nonempty in V as (c & -> & Lc).
  match type of H with Ok (VList ?l, _) = _ => set (l0 := l) in H; assert (v = VList l0 /\ s' = r) as [-> ->] by (split; congruence) end.
  cbn [enc_with bitwise_size] in Eb. apply eapp_Ok in Eb as (y & z & Ey & Ez & ->). apply envu_len5 in Ey. apply raws_len1 in Ez. unfold l0 in Ez. rewrite cut_len in Ez.
  exists (c ++ d). rewrite app_assoc, !app_length. split; [reflexivity|lia].
Qed.
Inductive grow_all rf re : list ty -> Prop :=
| grow_nil : grow_all rf re []
| grow_cons t ts : grows (from_bin_with rf t) (enc_with re t) -> grow_all rf re ts -> grow_all rf re (t :: ts).
Lemma grows_tuple rf re ts : grow_all rf re ts -> grows (from_bin_with rf (TTuple ts)) (enc_with re (TTuple ts)).
Proof.
  intros G bs v r b B H Eb. cbn [from_bin_with] in H. apply bind_Ok in H as ([l s] & R & H). assert (v = VList l /\ s = r) as [-> ->] by (split; congruence). clear H.
  cbn [enc_with] in Eb. revert bs l r b B R Eb. induction G as [|t ts G Gs IH]; intros bs l r b B H Eb; cbn [map read_tuple] in H.
  - assert (l = [] /\ bs = r) as [-> ->] by (split; congruence). exists []. split; [reflexivity|]. cbn in Eb. assert (b = []) by congruence. subst b. cbn. lia.
  - apply bind_Ok in H as ([x s] & F & H). apply bind_Ok in H as ([l' s'] & R & H). assert (l = x :: l' /\ s' = r) as [-> ->] by (split; congruence).
    cbn [map enc_tuple] in Eb. apply eapp_Ok in Eb as (y & z & Ey & Ez & ->). destruct (G _ _ _ _ B F Ey) as (c & -> & L). apply bytes_ok_app in B as [_ B]. destruct (IH _ _ _ _ B R Ez) as (c' & -> & L').
    exists (c ++ c'). rewrite app_assoc, !app_length. split; [reflexivity|lia].
Qed.
Lemma grow_nth rf re ts : grow_all rf re ts -> forall i f g, nthz (map (from_bin_with rf) ts) i = Some f -> nthz (map (enc_with re) ts) i = Some g -> grows f g.
Proof.
  induction 1 as [|t ts G Gs IH]; intros i f g Hf Hg; [discriminate|]. cbn [map nthz] in Hf, Hg. destruct (i =? 0); [|eapply IH; eauto].
  assert (f = from_bin_with rf t) by congruence. assert (g = enc_with re t) by congruence. subst. exact G.
Qed.
Lemma grows_variant rf re ts : grow_all rf re ts -> grows (from_bin_with rf (TVariant ts)) (enc_with re (TVariant ts)).
Proof.
  intros G bs v r b B H Eb. cbn [from_bin_with] in H. apply bind_Ok in H as ([i s] & V & H). destruct (nthz (map (from_bin_with rf) ts) i) as [f|] eqn:Ni; [|discriminate].
  apply bind_Ok in H as ([x s'] & F & H). assert (v = VVar i x /\ s' = r) as [-> ->] by (split; congruence). cbn [enc_with] in Eb.
  apply eapp_Ok in Eb as (y & z & Ey & Ez & ->). destruct (nthz (map (enc_with re) ts) i) as [g|] eqn:Ng; [|discriminate]. apply vu_nonempty in V as (c & -> & Lc). apply bytes_ok_app in B as [_ B].
  destruct (grow_nth rf re ts G i f g Ni Ng _ _ _ _ B F Ez) as (c' & -> & L). apply envu_len5 in Ey. exists (c ++ c'). rewrite app_assoc, !app_length. split; [reflexivity|lia].
Qed.
Lemma grows_wrap rf re k t : grows (from_bin_with rf t) (enc_with re t) -> grows (from_bin_with rf (TWrap k t)) (enc_with re (TWrap k t)).
Proof. intros G bs v r b B H Eb. exact (G bs v r b B H Eb). Qed.
Lemma key_grows t : In t [public_key_ty; private_key_ty; signature_ty] -> forall rf re, grows (from_bin_with rf t) (enc_with re t).
Proof.
  assert (A : forall rf re n, grows (from_bin_with rf (char_array n)) (enc_with re (char_array n))) by (intros; apply grows_arr, grows_int).
  intros [<-|[<-|[<-|[]]]] rf re; apply grows_variant; repeat (apply grow_cons; [first [apply A | apply grows_wrap, grows_tuple; repeat (apply grow_cons; [first [apply A|apply grows_int|apply grows_string|apply grows_bytes]|]); apply grow_nil]|]); apply grow_nil.
Qed.

(** ** From the text of a value to its bytes *)
Lemma scalar_bytes_cases b v : scalar_bytes b v = [] \/ exists x, enc key_env 0 (scalar_ty b) v = Ok x /\ scalar_bytes b v = x.
Proof.
  unfold scalar_bytes. rewrite convert_to_bin_eq, to_bin_vector. destruct (enc key_env 0 (scalar_ty b) v) as [x| |]; cbn [bind app]; auto. right. exists x. auto.
Qed.
Lemma unhex_len s d : unhex s = Some d -> (len s = 2 * len d)%nat.
Proof.
  intros U. destruct (C17_hex_of_unhex _ _ U) as [H1 H2]. assert (L : len (hex d) = len s) by (rewrite H2; apply map_length).
  destruct (C17_roundtrip d H1) as (_ & _ & L2 & _). lia.
Qed.
Lemma from_json_hex_len s d : from_json_hex s = Ok d -> (len s = 2 * len d)%nat.
Proof. unfold from_json_hex. intros H. apply bind_Ok in H as (? & _ & H). destruct (unhex s) as [r|] eqn:U; [|discriminate]. assert (r = d) by congruence. subst r. now apply unhex_len. Qed.
Lemma byte_array_len n v x : enc key_env 0 (byte_array n) v = Ok x -> exists l, v = VList l /\ len x = len l.
Proof.
  unfold byte_array. rewrite enc_unfold. cbn [enc_with]. destruct v as [| | | |l| |]; try discriminate. intros H. exists l. split; [reflexivity|].
  revert x H. induction l as [|y l IH]; intros x H; cbn [enc_seq] in H; [assert (x = []) by congruence; subst x; reflexivity|].
  apply eapp_Ok in H as (a & c & Ha & Hc & ->). rewrite app_length, (IH c Hc). destruct y; try discriminate Ha. assert (a = le_bytes 1 z) by congruence. subst a. rewrite le_bytes_length. reflexivity.
Qed.
Lemma key_bytes t b v x : In t [public_key_ty; private_key_ty; signature_ty] -> bytes_ok b -> convert_from_bin key_env 0 t b = Ok v -> enc key_env 0 t v = Ok x -> (len x <= 5 * len b)%nat.
Proof.
  intros Ht B H Ex. unfold convert_from_bin in H. apply bind_Ok in H as ([w r] & F & H). assert (w = v) by congruence. subst w.
  rewrite from_bin_unfold in F. rewrite enc_unfold in Ex. destruct (key_grows t Ht _ _ _ _ _ _ B F Ex) as (c & -> & L). rewrite app_length. lia.
Qed.
Lemma key_text_bytes t s i suffix v x : In t [public_key_ty; private_key_ty; signature_ty] -> is_byte i -> string_to_key t s i suffix = Ok v -> enc key_env 0 t v = Ok x -> (len x <= 10 * len s)%nat.
Proof.
  intros Ht Hi H Ex. unfold string_to_key in H. apply bind_Ok in H as (d & D & H). cbv zeta in H. apply bind_Ok in H as (? & C & H). apply bind_Ok in H as (? & _ & H). apply bind_Ok in H as (? & _ & H).
  pose proof (decoded_len _ _ D) as L. pose proof (from_base58_ok s d D) as B. unfold check in C. destruct (Nat.ltb_spec 5 (len (i :: d))) as [C'|]; [|discriminate]. cbn [len] in C', H.
  apply (key_bytes t _ v x Ht) in H; [|apply Forall_forall; intros y Hy; assert (Hin : In y (i :: d)) by (rewrite <- (firstn_skipn (S (len d) - 4) (i :: d)); apply in_or_app; now left); destruct Hin as [<-|Hin]; [exact Hi|unfold bytes_ok in B; rewrite Forall_forall in B; now apply B]|exact Ex].
  rewrite firstn_length in H. cbn [len] in H. lia.
Qed.
Lemma skipn_le {A} n (l : list A) : (len (skipn n l) <= len l)%nat. Proof. rewrite skipn_length. lia. Qed.
Lemma text_bytes E b t v : scalar_from_text E b t = Ok v -> (len (scalar_bytes b v) <= 16 * Nat.max 1 (len t))%nat.
Proof.
  intros H. destruct (scalar_bytes_cases b v) as [->|(x & Ex & ->)]; [cbn; lia|].
  assert (I : forall sg n, (n <= 16)%nat -> enc key_env 0 (TInt sg n) v = Ok x -> (len x <= 16 * Nat.max 1 (len t))%nat).
  { intros sg n Hn Y. rewrite enc_unfold in Y. cbn [enc_with] in Y. destruct v; try discriminate Y. assert (x = le_bytes n z) by congruence. subst x. rewrite le_bytes_length. lia. }
  assert (W : forall k sg n, (n <= 16)%nat -> enc key_env 0 (TWrap k (TInt sg n)) v = Ok x -> (len x <= 16 * Nat.max 1 (len t))%nat) by (intros k sg n Hn Y; apply (I sg n Hn Y)).
  assert (F : forall n, (n <= 16)%nat -> enc key_env 0 (TFloat n) v = Ok x -> (len x <= 16 * Nat.max 1 (len t))%nat).
  { intros n Hn Y. rewrite enc_unfold in Y. cbn [enc_with] in Y. destruct v; try discriminate Y. match type of Y with Ok ?y = _ => assert (x = y) by congruence end. subst x. rewrite le_bytes_length. lia. }
  assert (A : forall n, fixed_from_json n t = Ok v -> enc key_env 0 (byte_array n) v = Ok x -> (len x <= 16 * Nat.max 1 (len t))%nat).
  { intros n Y Z0. apply byte_array_len in Z0 as (l & -> & ->). unfold fixed_from_json in Y. apply bind_Ok in Y as (d & D & Y). apply bind_Ok in Y as (? & _ & Y). apply from_json_hex_len in D.
    assert (l = map VInt d) by congruence. subst l. rewrite map_length. lia. }
  assert (K : forall ty s i suf, In ty [public_key_ty; private_key_ty; signature_ty] -> is_byte i -> (len s <= len t)%nat -> string_to_key ty s i suf = Ok v -> enc key_env 0 ty v = Ok x -> (len x <= 16 * Nat.max 1 (len t))%nat).
  { intros ty s i suf Hty Hi L Y Z0. pose proof (key_text_bytes ty s i suf v x Hty Hi Y Z0). lia. }
  assert (B0 : is_byte 0 /\ is_byte 1 /\ is_byte 2) by (unfold is_byte; lia). destruct B0 as (B0 & B1 & B2).
  destruct b; cbn [scalar_from_text] in H; cbn [scalar_ty] in Ex; try discriminate H;
    try (match type of Ex with enc _ _ (TInt ?sg ?n) _ = _ => apply (I sg n); [lia|exact Ex] end);
    try (match type of Ex with enc _ _ (TFloat ?n) _ = _ => apply (F n); [lia|exact Ex] end);
    try (unfold value_class in Ex; match type of Ex with enc _ _ (TWrap ?k (TInt ?sg ?n)) _ = _ => apply (W k sg n); [lia|exact Ex] end);
    try (match type of H with fixed_from_json ?n _ = _ => apply (A n); [exact H|exact Ex] end).
  - rewrite enc_unfold in Ex. cbn [enc_with] in Ex. destruct v; try discriminate Ex. apply envu_len5 in Ex. lia.
  - rewrite enc_unfold in Ex. cbn [enc_with] in Ex. destruct v; try discriminate Ex. apply envu_len5 in Ex. lia.
  - apply bind_Ok in H as (d & D & H). assert (v = VStr d) by congruence. subst v. rewrite enc_unfold in Ex. cbn [enc_with] in Ex. apply eapp_Ok in Ex as (y & z & Ey & Ez & ->). apply envu_len5 in Ey.
    assert (z = d) by congruence. subst z. apply from_json_hex_len in D. rewrite app_length. lia.
  - assert (v = VStr t) by congruence. subst v. rewrite enc_unfold in Ex. cbn [enc_with] in Ex. apply eapp_Ok in Ex as (y & z & Ey & Ez & ->). apply envu_len5 in Ey.
    assert (z = t) by congruence. subst z. rewrite app_length. lia.
  - unfold public_key_from_string in H. repeat (destruct (starts _ _); [eapply K; [left; reflexivity| |apply skipn_le|exact H|exact Ex]; assumption|]). discriminate H.
  - unfold private_key_from_string in H. do 2 (destruct (starts _ _); [eapply K; [right; left; reflexivity| |apply skipn_le|exact H|exact Ex]; assumption|]). destruct (starts _ _); [discriminate H|].
    apply bind_Ok in H as (w & D & H). apply bind_Ok in H as (? & _ & H). pose proof (decoded_len _ _ D) as L. pose proof (from_base58_ok t w D) as B.
    apply (key_bytes private_key_ty _ v x) in H; [|right; left; reflexivity| |exact Ex].
    + rewrite firstn_length in H. lia.
    + apply Forall_forall. intros y Hy. assert (Hin : In y (0 :: skipn 1 w)) by (rewrite <- (firstn_skipn (len w - 4) (0 :: skipn 1 w)); apply in_or_app; now left). destruct Hin as [<-|Hin]; [exact B0|].
      unfold bytes_ok in B. rewrite Forall_forall in B. apply B. rewrite <- (firstn_skipn 1 w). apply in_or_app. now right.
  - unfold signature_from_string in H. repeat (destruct (_ && _); [eapply K; [right; right; left; reflexivity| |apply skipn_le|exact H|exact Ex]; assumption|]). discriminate H.
  - apply bind_Ok in H as (a & _ & H). match type of H with Ok ?y = _ => assert (v = y) by congruence end. subst v. rewrite enc_unfold in Ex. cbn [enc_with map enc_tuple] in Ex.
    apply eapp_Ok in Ex as (y & z & Ey & Ez & ->). apply eapp_Ok in Ez as (y' & z' & Ey' & Ez' & ->). assert (y = le_bytes 8 (amount a)) by congruence. assert (y' = le_bytes 8 (symbol a)) by congruence. assert (z' = []) by congruence. subst.
    rewrite !app_length, !le_bytes_length. cbn [len]. lia.
Qed.
