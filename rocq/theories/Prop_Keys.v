(** * C18, C19: base58, keys and signatures as text *)
From Verif Require Import Base Stream TypedBin TypedSpec TypedBinFacts BinLemmas Base58 Base58Facts Ripemd160 RipemdSpec Prop_Ripemd Keys KeysFacts.

(** ** C18: base58 *)
Theorem C18_base58_bytes_roundtrip : forall b, bytes_ok b ->
  forallb is_base58 (to_base58 b) = true /\ from_base58 (to_base58 b) = Ok b.
Proof. intros b H. destruct (base58_roundtrip b H) as (_ & H1 & H2). auto. Qed.
Print Assumptions C18_base58_bytes_roundtrip.
(** Every text over the alphabet decodes to the bytes with the same value (read as one big
    endian number) and as many leading zero bytes as it has leading '1' characters, and prints
    as the same text again. *)
Theorem C18_base58_text_roundtrip : forall s, bytes_ok s -> forallb is_base58 s = true ->
  exists b, from_base58 s = Ok b /\ bytes_ok b /\ leading 0 b = leading 49 s /\
    be_value 256 b = be_value 58 (map digit58 s) /\ to_base58 b = s.
Proof. exact decode_full. Qed.
Print Assumptions C18_base58_text_roundtrip.
Example C18_base58_example : to_base58 (str "Hello World!") = str "2NEpo7TZRRrLZSi2U" /\ from_base58 (str "112") = Ok [0; 0; 1] /\ from_base58 (str "0") = Err E_expected_key.
Proof. vm_compute. auto. Qed.

(** ** C18: keys *)
Definition prefix_of (kind : bytes) (i : Z) : bytes :=
  kind ++ str "_" ++ nth (Z.to_nat i) [str "K1"; str "R1"; str "WA"] [] ++ str "_".
Definition key_size_ok (t : ty) (k : val) : Prop :=
  forall bin, convert_to_bin key_env 0 t k [] = Ok bin -> Z.of_nat (List.length bin) <= 2 ^ 31.
Theorem C18_public_key_text : forall k, wf key_env 0 public_key_ty k = true -> key_size_ok public_key_ty k ->
  exists text body, public_key_to_string k = Ok text /\ text = prefix_of (str "PUB") (index k) ++ body /\ public_key_from_string text = Ok k.
Proof.
  intros k Hw Hs. destruct k; try discriminate. unfold public_key_to_string, index in *.
  assert (Hi : i = 0 \/ i = 1 \/ i = 2).
  { pose proof (variant_index _ _ _ Hw) as V. cbn [List.length] in V. lia. }
  assert (Hlen : forall bin, convert_to_bin key_env 0 public_key_ty (VVar i k) [] = Ok bin -> (1 < List.length bin)%nat /\ Z.of_nat (List.length bin) <= 2 ^ 31).
  { intros bin He. split; [|exact (Hs bin He)]. destruct Hi as [Hi|[Hi|Hi]].
    - rewrite (ecc_bin_len 33 [webauthn_public_key_ty] i k bin); auto; lia.
    - rewrite (ecc_bin_len 33 [webauthn_public_key_ty] i k bin); auto; lia.
    - subst i. pose proof (wa_bin_len 33 _ _ k bin Hw He). lia. }
  destruct Hi as [->|[->| ->]]; cbn [Z.eqb Pos.eqb].
  - destruct (key_text public_key_ty 0 k (str "K1") (str "PUB_K1_")) as (body & E1 & _ & _ & E2); auto; [lia|eexists; reflexivity|reflexivity|].
    exists (str "PUB_K1_" ++ body), body. split; [exact E1|]. split; [reflexivity|]. exact E2.
  - destruct (key_text public_key_ty 1 k (str "R1") (str "PUB_R1_")) as (body & E1 & _ & _ & E2); auto; [lia|eexists; reflexivity|reflexivity|].
    exists (str "PUB_R1_" ++ body), body. split; [exact E1|]. split; [reflexivity|]. exact E2.
  - destruct (key_text public_key_ty 2 k (str "WA") (str "PUB_WA_")) as (body & E1 & _ & _ & E2); auto; [lia|eexists; reflexivity|reflexivity|].
    exists (str "PUB_WA_" ++ body), body. split; [exact E1|]. split; [reflexivity|]. exact E2.
Qed.
Print Assumptions C18_public_key_text.
Theorem C18_signature_text : forall k, wf key_env 0 signature_ty k = true -> key_size_ok signature_ty k ->
  exists text body, signature_to_string k = Ok text /\ text = prefix_of (str "SIG") (index k) ++ body /\ signature_from_string text = Ok k.
Proof.
  intros k Hw Hs. destruct k; try discriminate. unfold signature_to_string, index in *.
  assert (Hi : i = 0 \/ i = 1 \/ i = 2).
  { pose proof (variant_index _ _ _ Hw) as V. cbn [List.length] in V. lia. }
  assert (Hlen : forall bin, convert_to_bin key_env 0 signature_ty (VVar i k) [] = Ok bin -> (1 < List.length bin)%nat /\ Z.of_nat (List.length bin) <= 2 ^ 31).
  { intros bin He. split; [|exact (Hs bin He)]. destruct Hi as [Hi|[Hi|Hi]].
    - rewrite (ecc_bin_len 65 [webauthn_signature_ty] i k bin); auto; lia.
    - rewrite (ecc_bin_len 65 [webauthn_signature_ty] i k bin); auto; lia.
    - subst i. pose proof (wa_bin_len 65 _ _ k bin Hw He). lia. }
  destruct Hi as [->|[->| ->]]; cbn [Z.eqb Pos.eqb].
  - destruct (key_text signature_ty 0 k (str "K1") (str "SIG_K1_")) as (body & E1 & _ & _ & E2); auto; [lia|eexists; reflexivity|reflexivity|].
    exists (str "SIG_K1_" ++ body), body. split; [exact E1|]. split; [reflexivity|]. exact E2.
  - destruct (key_text signature_ty 1 k (str "R1") (str "SIG_R1_")) as (body & E1 & _ & _ & E2); auto; [lia|eexists; reflexivity|reflexivity|].
    exists (str "SIG_R1_" ++ body), body. split; [exact E1|]. split; [reflexivity|]. exact E2.
  - destruct (key_text signature_ty 2 k (str "WA") (str "SIG_WA_")) as (body & E1 & _ & _ & E2); auto; [lia|eexists; reflexivity|reflexivity|].
    exists (str "SIG_WA_" ++ body), body. split; [exact E1|]. split; [reflexivity|]. exact E2.
Qed.
Print Assumptions C18_signature_text.
Theorem C18_private_key_text : forall k, wf key_env 0 private_key_ty k = true ->
  exists text body, private_key_to_string k = Ok text /\ text = prefix_of (str "PVT") (index k) ++ body /\ private_key_from_string text = Ok k.
Proof.
  intros k Hw. destruct k; try discriminate. unfold private_key_to_string, index in *.
  assert (Hi : i = 0 \/ i = 1).
  { pose proof (variant_index _ _ _ Hw) as V. cbn [List.length] in V. lia. }
  assert (Hlen : forall bin, convert_to_bin key_env 0 private_key_ty (VVar i k) [] = Ok bin -> (1 < List.length bin)%nat /\ Z.of_nat (List.length bin) <= 2 ^ 31).
  { intros bin He. rewrite (ecc_bin_len 32 [] i k bin); auto; lia. }
  destruct Hi as [->| ->]; cbn [Z.eqb Pos.eqb].
  - destruct (key_text private_key_ty 0 k (str "K1") (str "PVT_K1_")) as (body & E1 & _ & _ & E2); auto; [lia|eexists; reflexivity|reflexivity|].
    exists (str "PVT_K1_" ++ body), body. split; [exact E1|]. split; [reflexivity|]. exact E2.
  - destruct (key_text private_key_ty 1 k (str "R1") (str "PVT_R1_")) as (body & E1 & _ & _ & E2); auto; [lia|eexists; reflexivity|reflexivity|].
    exists (str "PVT_R1_" ++ body), body. split; [exact E1|]. split; [reflexivity|]. exact E2.
Qed.
Print Assumptions C18_private_key_text.
(** The ECC kinds have a fixed size, so the size hypothesis holds. *)
Theorem C18_ecc_size : forall i x, (i = 0 \/ i = 1) ->
  (wf key_env 0 public_key_ty (VVar i x) = true -> key_size_ok public_key_ty (VVar i x)) /\
  (wf key_env 0 signature_ty (VVar i x) = true -> key_size_ok signature_ty (VVar i x)).
Proof.
  intros i x Hi. split; intros Hw bin He.
  - rewrite (ecc_bin_len 33 [webauthn_public_key_ty] i x bin); auto; lia.
  - rewrite (ecc_bin_len 65 [webauthn_signature_ty] i x bin); auto; lia.
Qed.
Print Assumptions C18_ecc_size.
Definition zero_key : val := VVar 0 (VList (repeat (VInt 0) 33)).
Example C18_example : wf key_env 0 public_key_ty zero_key = true /\
  public_key_to_string zero_key = Ok (str "PUB_K1_11111111111111111111111111111111149Mr2R") /\
  public_key_from_string (str "EOS1111111111111111111111111111111114T1Anm") = Ok zero_key.
Proof. vm_compute. auto. Qed.

(** ** C19 *)
(** The documented forms: prefix, kind, checksum suffix. *)
Definition public_key_forms : list (bytes * Z * bytes) :=
  [(str "EOS", 0, str ""); (str "PUB_K1_", 0, str "K1"); (str "PUB_R1_", 1, str "R1"); (str "PUB_WA_", 2, str "WA")].
Definition signature_forms : list (bytes * Z * bytes) :=
  [(str "SIG_K1_", 0, str "K1"); (str "SIG_R1_", 1, str "R1"); (str "SIG_WA_", 2, str "WA")].
Definition private_key_forms : list (bytes * Z * bytes) :=
  [(str "PVT_K1_", 0, str "K1"); (str "PVT_R1_", 1, str "R1")].
Lemma starts_spec s p : starts s p = true -> s = p ++ skipn (List.length p) s.
Proof. unfold starts. intros H. apply beq_eq in H. rewrite <- H at 1. symmetry. apply firstn_skipn. Qed.
Lemma short_skipn n s : short s -> short (skipn n s).
Proof. unfold short. rewrite skipn_length. lia. Qed.
Lemma short_app p s : short (p ++ s) -> short s.
Proof. unfold short. rewrite app_length. lia. Qed.
Ltac finish_form H p :=
  match goal with
  | E : starts ?s p = true |- _ => exists p; do 2 eexists; exists (skipn (List.length p) s);
      split; [cbn [In public_key_forms signature_forms private_key_forms]; eauto 6|]; split; [apply starts_spec; exact E|]; apply string_to_key_iff; [apply short_skipn; assumption|reflexivity|exact H]
  end.
Theorem C19_public_key_accepts : forall s k, short s ->
  public_key_from_string s = Ok k <->
  exists prefix i suffix body, In (prefix, i, suffix) public_key_forms /\ s = prefix ++ body /\ checked_body public_key_ty i suffix body k.
Proof.
  intros s k Hs. split.
  - unfold public_key_from_string. destruct (starts s (str "EOS")) eqn:E0; [intros H; finish_form H (str "EOS")|].
    destruct (starts s (str "PUB_K1_")) eqn:E1; [intros H; finish_form H (str "PUB_K1_")|].
    destruct (starts s (str "PUB_R1_")) eqn:E2; [intros H; finish_form H (str "PUB_R1_")|].
    destruct (starts s (str "PUB_WA_")) eqn:E3; [intros H; finish_form H (str "PUB_WA_")|]. discriminate.
  - intros (p & i & suf & body & Hin & -> & Hc). cbn [In public_key_forms] in Hin.
    destruct Hin as [H|[H|[H|[H|[]]]]]; injection H as <- <- <-; apply string_to_key_iff; auto; try reflexivity; eapply short_app; eauto.
Qed.
Print Assumptions C19_public_key_accepts.
Theorem C19_signature_accepts : forall s k, short s ->
  signature_from_string s = Ok k <->
  exists prefix i suffix body, In (prefix, i, suffix) signature_forms /\ s = prefix ++ body /\ checked_body signature_ty i suffix body k.
Proof.
  intros s k Hs. split.
  - unfold signature_from_string. destruct (Nat.leb 7 (List.length s)); cbn [andb]; [|discriminate]. destruct (starts s (str "SIG_K1_")) eqn:E1; [intros H; finish_form H (str "SIG_K1_")|].
    destruct (starts s (str "SIG_R1_")) eqn:E2; [intros H; finish_form H (str "SIG_R1_")|].
    destruct (starts s (str "SIG_WA_")) eqn:E3; [intros H; finish_form H (str "SIG_WA_")|]. discriminate.
  - intros (p & i & suf & body & Hin & -> & Hc). cbn [In signature_forms] in Hin.
    destruct Hin as [H|[H|[H|[]]]]; injection H as <- <- <-; apply string_to_key_iff; auto; try reflexivity; eapply short_app; eauto.
Qed.
Print Assumptions C19_signature_accepts.
(** A private key text with a PVT_ prefix is checked in the same way. *)
Theorem C19_private_key_accepts : forall s k, short s -> starts s (str "PVT_") = true ->
  private_key_from_string s = Ok k <->
  exists prefix i suffix body, In (prefix, i, suffix) private_key_forms /\ s = prefix ++ body /\ checked_body private_key_ty i suffix body k.
Proof.
  intros s k Hs Hp. split.
  - unfold private_key_from_string. rewrite Hp. destruct (starts s (str "PVT_K1_")) eqn:E1; [intros H; finish_form H (str "PVT_K1_")|].
    destruct (starts s (str "PVT_R1_")) eqn:E2; [intros H; finish_form H (str "PVT_R1_")|]. discriminate.
  - intros (p & i & suf & body & Hin & -> & Hc). cbn [In private_key_forms] in Hin.
    destruct Hin as [H|[H|[]]]; injection H as <- <- <-; apply string_to_key_iff; auto; try reflexivity; eapply short_app; eauto.
Qed.
Print Assumptions C19_private_key_accepts.
(** What is accepted is a well formed key of the kind its prefix says. *)
Lemma mul58_ok r : forall c, 0 <= c -> bytes_ok r -> bytes_ok (mul58_add c r).
Proof.
  induction r as [|b r IH]; intros c Hc H; cbn [mul58_add]; [destruct (c =? 0); repeat constructor; apply Z.mod_pos_bound; lia|].
  cbv zeta. inversion H; subst. constructor; [apply Z.mod_pos_bound; lia|]. apply IH; auto. apply Z.shiftr_nonneg. unfold is_byte in *. lia.
Qed.
Lemma decoded_ok s : forall r x, bytes_ok r -> base58_digits_in s r = Ok x -> bytes_ok x.
Proof.
  induction s as [|c s IH]; intros r x Hr H; [injection H as <-; auto|]. cbn [base58_digits_in] in H. cbv zeta in H. unfold check in H.
  destruct (0 <=? base58_map c) eqn:E; [|discriminate]. cbn [bind] in H. eapply IH; [|exact H]. apply mul58_ok; auto. lia.
Qed.
Lemma from_base58_ok s b : from_base58 s = Ok b -> bytes_ok b.
Proof.
  unfold from_base58, base58_to_binary. intros H. apply bind_Ok in H as [r [E H]]. injection H as <-. apply Forall_rev. apply Forall_app. split.
  - eapply decoded_ok; [|exact E]. constructor.
  - apply Forall_forall. intros x Hx. apply repeat_spec in Hx. unfold is_byte. lia.
Qed.
Theorem C19_checked_body_wellformed : forall t i suffix body k, In t [public_key_ty; private_key_ty; signature_ty] -> 0 <= i <= 2 -> short body ->
  checked_body t i suffix body k -> wf key_env 0 t k = true /\ index k = i.
Proof.
  intros t i suffix body k Ht Hi Hb (data & chk & E & _ & _ & _ & H). unfold convert_from_bin in H. apply bind_Ok in H as [[v rest] [H Hv]]. injection Hv as ->.
  assert (Hd : bytes_ok (i :: data)). { apply from_base58_ok in E. apply bytes_ok_app in E. constructor; [unfold is_byte; lia|apply E]. }
  assert (Hl : Z.of_nat (List.length (i :: data)) < 2 ^ 32). { apply decoded_len in E. rewrite app_length in E. unfold short in Hb. cbn [List.length]. lia. }
  split.
  - pose proof (native_decode_sound key_env 0 t (i :: data) (fun _ => eq_refl)) as S. rewrite H in S.
    apply S; auto. cbn [In] in Ht. destruct Ht as [<-|[<-|[<-|[]]]]; reflexivity.
  - assert (G : exists ts, t = TVariant ts) by (cbn [In] in Ht; destruct Ht as [<-|[<-|[<-|[]]]]; eexists; reflexivity). destruct G as [ts ->].
    cbn [from_bin from_bin_with] in H. apply bind_Ok in H as [[j s'] [Hj H]].
    assert (Ej : j = i). { assert (X : varuint32_from_bin (i :: data) = Ok (i, data)) by (change (i :: data) with ([i] ++ data); rewrite <- (encv_small i) by lia; apply StreamFacts.varuint32_roundtrip; [lia|inversion Hd; auto]). congruence. }
    destruct (nthz _ j); [|discriminate]. apply bind_Ok in H as [[x r0] [Hx H]]. injection H as <- <-. exact Ej.
Qed.
Print Assumptions C19_checked_body_wellformed.
(** The base58 reader refuses every character outside the alphabet, except NUL. *)
Theorem C19_base58_rejects : forall s, bytes_ok s ->
  (exists b, from_base58 s = Ok b) <-> forallb (fun c => is_base58 c || (c =? 0)) s = true.
Proof.
  intros s H. unfold from_base58. split.
  - intros [b E]. rewrite decode_errors_iff in E by auto. destruct (forallb _ s); [reflexivity|discriminate].
  - intros E. unfold base58_to_binary. destruct (nul_digits_in s [] H E) as [x ->]. cbn [bind]. eauto.
Qed.
Print Assumptions C19_base58_rejects.
(** Finding: NUL is a 59th digit, so texts outside the alphabet are accepted. *)
Theorem C19_base58_alphabet_refuted : exists s b, bytes_ok s /\ forallb is_base58 s = false /\ from_base58 s = Ok b.
Proof. exists [50; 0], [116]. split; [repeat constructor; lia|]. vm_compute. auto. Qed.
Print Assumptions C19_base58_alphabet_refuted.
(** Finding: bytes after the key and before the checksum are accepted and ignored, so a key
    has several accepted texts with the same prefix. *)
Theorem C19_unique_text_refuted : forall x extra, wf key_env 0 public_key_ty (VVar 0 x) = true -> bytes_ok extra -> (List.length extra < 1000)%nat ->
  exists body, bytes_ok body /\ (forall text, public_key_to_string (VVar 0 x) = Ok text -> extra <> [] -> text <> str "PUB_K1_" ++ body) /\
    public_key_from_string (str "PUB_K1_" ++ body) = Ok (VVar 0 x).
Proof.
  intros x extra Hw He Hle. destruct (variant_bin _ 0 x Hw ltac:(lia)) as (data & Eb & Hd & Hf & Hx & _).
  pose proof (ecc_bin_len 33 [webauthn_public_key_ty] 0 x _ ltac:(auto) Hw Eb) as Hl. cbn [List.length] in Hl.
  remember (data ++ extra) as d2 eqn:E2. remember (firstn 4 (RIPEMD160 (d2 ++ str "K1"))) as chk eqn:Ec.
  destruct (C47_digest_size (d2 ++ str "K1")) as [D1 D2].
  assert (Lc : List.length chk = 4%nat) by (rewrite Ec, firstn_length; lia).
  assert (Hc : bytes_ok chk). { rewrite Ec. rewrite <- (firstn_skipn 4) in D2. apply bytes_ok_app in D2. apply D2. }
  assert (Hdc : bytes_ok (d2 ++ chk)) by (rewrite E2; repeat (apply bytes_ok_app; split; auto)).
  destruct (base58_roundtrip _ Hdc) as (R1 & R2 & R3). exists (binary_to_base58 (d2 ++ chk)). split; [exact R1|]. split.
  - intros text Ht Hn Heq. unfold public_key_to_string, index in Ht. cbn [Z.eqb] in Ht. unfold key_to_string in Ht. unfold public_key_ty in Ht. rewrite Eb in Ht.
    cbn [bind skipn] in Ht. rewrite C47_digest_suffix in Ht by (try reflexivity; lia). cbn [bind] in Ht. cbv zeta in Ht. cbn [app skipn] in Ht.
    rewrite Heq in Ht. assert (Q : binary_to_base58 (data ++ firstn 4 (RIPEMD160 (data ++ str "K1"))) = binary_to_base58 (d2 ++ chk)) by (apply (app_inv_head (str "PUB_K1_")); cbn [str app] in Ht |- *; congruence).
    assert (Hdd : bytes_ok (data ++ firstn 4 (RIPEMD160 (data ++ str "K1")))).
    { destruct (C47_digest_size (data ++ str "K1")) as [_ D4]. rewrite <- (firstn_skipn 4) in D4. apply bytes_ok_app in D4. apply bytes_ok_app. tauto. }
    destruct (base58_roundtrip _ Hdd) as (_ & _ & R4). rewrite Q, R3 in R4. apply (f_equal (fun r => match r with Ok b => List.length b | _ => O end)) in R4. cbv beta iota in R4. rewrite E2, !app_length, Lc, firstn_length in R4.
    destruct (C47_digest_size (data ++ str "K1")) as [D3 _]. rewrite D3 in R4. destruct extra; [congruence|cbn [List.length] in R4; lia].
  - change (string_to_key public_key_ty (binary_to_base58 (d2 ++ chk)) 0 (str "K1") = Ok (VVar 0 x)).
    unfold string_to_key. rewrite R3. cbn [bind]. cbv zeta. change (skipn 1 (0 :: d2 ++ chk)) with (d2 ++ chk).
    assert (Ld : (33 <= List.length d2)%nat) by (rewrite E2, app_length; lia).
    assert (L : List.length (0 :: d2 ++ chk) = (List.length d2 + 5)%nat) by (cbn [List.length]; rewrite app_length; lia). rewrite L.
    destruct (Nat.ltb 5 (List.length d2 + 5)) eqn:El; [|apply Nat.ltb_ge in El; lia]. cbn [check bind].
    replace (List.length d2 + 5 - 5)%nat with (List.length d2) by lia.
    replace (List.length d2 + 5 - 4)%nat with (S (List.length d2)) by lia. rewrite firstn_cons, skipn_cons.
    rewrite firstn_app, firstn_all, skipn_app, skipn_all, Nat.sub_diag, firstn_O, app_nil_r, skipn_O. cbn [app].
    rewrite C47_digest_suffix; [|rewrite E2, app_length; lia|reflexivity]. cbn [bind]. rewrite <- Ec. rewrite (firstn_all2 chk) by lia.
    unfold check. rewrite beq_refl. cbn [bind]. rewrite E2. apply (Hx extra He).
Qed.
Print Assumptions C19_unique_text_refuted.
(** Finding: a private key in the legacy form (no PVT_ prefix) is accepted with any version byte
    and any four checksum bytes. *)
Theorem C19_wif_checksum_refuted : forall x version chk, wf key_env 0 private_key_ty (VVar 0 x) = true ->
  is_byte version -> bytes_ok chk -> List.length chk = 4%nat ->
  exists data, convert_to_bin key_env 0 private_key_ty (VVar 0 x) [] = Ok (0 :: data) /\
    private_key_from_string (to_base58 (version :: data ++ chk)) = Ok (VVar 0 x).
Proof.
  intros x ver chk Hw Hv Hc Lc. destruct (variant_bin _ 0 x Hw ltac:(lia)) as (data & Eb & Hd & Hf & _). exists data. split; [exact Eb|].
  assert (Hdc : bytes_ok (ver :: data ++ chk)) by (constructor; auto; apply bytes_ok_app; auto).
  destruct (base58_roundtrip _ Hdc) as (R1 & R2 & R3). unfold to_base58. remember (binary_to_base58 (ver :: data ++ chk)) as s eqn:Es.
  assert (N : forall p, forallb is_base58 p = false -> starts s p = false).
  { intros p Hp. destruct (starts s p) eqn:E; [|reflexivity]. apply starts_spec in E. rewrite E, forallb_app, Hp in R2. discriminate. }
  unfold private_key_from_string. rewrite !N by (vm_compute; reflexivity). rewrite R3. cbn [bind].
  assert (L : List.length (ver :: data ++ chk) = (List.length data + 5)%nat) by (cbn [List.length]; rewrite app_length; lia). rewrite L.
  destruct (Nat.leb 5 (List.length data + 5)) eqn:El; [|apply Nat.leb_gt in El; lia]. cbn [check bind skipn].
  replace (List.length data + 5 - 4)%nat with (S (List.length data)) by lia. rewrite firstn_cons, firstn_app, firstn_all, Nat.sub_diag, firstn_O, app_nil_r. exact Hf.
Qed.
Print Assumptions C19_wif_checksum_refuted.
(** Exactly which texts without a "PVT_" prefix are private keys: any base58 text of a first byte (which is ignored), the 32 bytes of the key,
    any further bytes (ignored), and four bytes in the place of the checksum (ignored). *)
Lemma char_read ref refe n : forall data v rest, bytes_ok data -> from_bin_with ref (char_array n) data = Ok (v, rest) ->
  exists key, data = key ++ rest /\ enc_with refe (char_array n) v = Ok key.
Proof.
  unfold char_array. cbn [from_bin_with]. intros data v rest Hd H. apply bind_Ok in H as [[l r] [H X]]. injection X as <- <-.
  change (enc_with refe (TArr n (TInt true 1)) (VList l)) with (enc_seq (enc_with refe (TInt true 1)) l). revert data l Hd H. induction n as [|n IH]; intros data l Hd H.
  - cbn [read_list] in H. injection H as <- <-. exists []. split; reflexivity.
  - cbn [read_list] in H. apply bind_Ok in H as [[x s] [H1 H]]. apply bind_Ok in H as [[l' s'] [H2 H]]. assert (l = x :: l') as -> by congruence. assert (s' = r) as -> by congruence. clear H.
    apply bind_Ok in H1 as [[b s1] [H1 X]]. assert (s1 = s) as -> by congruence.
    destruct data as [|c data]; [vm_compute in H1; discriminate|].
    assert (B : b = [c] /\ s = data).
    { unfold sread in H1. destruct (Z.leb_spec (Z.of_nat 1) (Z.of_nat (List.length (c :: data)))) as [F|F]; [|cbn [List.length] in F; lia].
      cbn [check bind] in H1. change (Z.to_nat (Z.of_nat 1)) with 1%nat in H1. cbn [firstn skipn] in H1. split; congruence. }
    destruct B as [-> ->]. inversion Hd as [|c0 d0 Hc Hd' E1]. subst.
    destruct (IH _ _ Hd' H2) as (key & -> & E). exists (c :: key). split; [reflexivity|].
    assert (x = of_raw (TInt true 1) [c]) as -> by congruence.
    cbn [enc_seq]. unfold eapp. rewrite E.
    assert (Q : enc_with refe (TInt true 1) (of_raw (TInt true 1) [c]) = Ok [c]).
    { cbn. do 2 f_equal. unfold is_byte in Hc. unfold to_signed. change (2 ^ (8 * 1 - 1)) with 128. destruct (_ <? _); lia. }
    rewrite Q. reflexivity.
Qed.
Theorem C19_legacy_private_key_accepts : forall s k, short s -> starts s (str "PVT_") = false ->
  private_key_from_string s = Ok k <->
  exists version key extra chk, from_base58 s = Ok (version :: key ++ extra ++ chk) /\ List.length key = 32%nat /\ List.length chk = 4%nat /\
    wf key_env 0 private_key_ty k = true /\ convert_to_bin key_env 0 private_key_ty k [] = Ok (0 :: key).
Proof.
  intros s k Hs Hp. assert (N : forall p, starts s (str "PVT_" ++ p) = false).
  { intros p. destruct (starts s (str "PVT_" ++ p)) eqn:E; [|reflexivity]. apply starts_spec in E. rewrite E in Hp. cbn in Hp. discriminate Hp. }
  pose proof (N (str "K1_")) as N1. pose proof (N (str "R1_")) as N2. unfold private_key_from_string, from_base58.
  change (str "PVT_K1_") with (str "PVT_" ++ str "K1_"). change (str "PVT_R1_") with (str "PVT_" ++ str "R1_"). rewrite N1, N2, Hp.
  destruct (base58_to_binary s) as [whole|e|w] eqn:Ew; cbn [bind]; [|split; [discriminate|intros (? & ? & ? & ? & X & _); discriminate X]..].
  pose proof (from_base58_ok s whole Ew) as Ow. pose proof (decoded_len s whole Ew) as Lw.
  assert (V : forall x, wf key_env 0 private_key_ty (VVar 0 x) = true -> forall key, enc key_env 0 (char_array 32) x = Ok key ->
    convert_to_bin key_env 0 private_key_ty (VVar 0 x) [] = Ok (0 :: key)).
  { intros x Hw key Ek. destruct (variant_bin _ 0 x Hw ltac:(lia)) as (data & Eb & _ & _ & _ & f & Ef & Ed).
    assert (f = enc key_env 0 (char_array 32)) as -> by (cbn in Ef; injection Ef as <-; reflexivity). unfold private_key_ty. rewrite Eb. do 2 f_equal. congruence. }
  split.
  - intros H. apply bind_Ok in H as [u [C H]]. destruct (Nat.leb_spec 5 (List.length whole)) as [L|L]; [|discriminate C]. clear C u.
    destruct whole as [|version d]; [cbn [List.length] in L; lia|]. cbn [List.length skipn] in *. inversion Ow as [|v0 d0 Ov Od E0]. subst v0 d0.
    replace (S (List.length d) - 4)%nat with (S (List.length d - 4)) in H by lia. rewrite firstn_cons in H.
    remember (firstn (List.length d - 4) d) as data eqn:Ed. remember (skipn (List.length d - 4) d) as chk eqn:Ec.
    assert (D : d = data ++ chk) by (rewrite Ed, Ec; symmetry; apply firstn_skipn).
    assert (Lc : List.length chk = 4%nat) by (rewrite Ec, skipn_length; lia).
    assert (Odata : bytes_ok data) by (rewrite D in Od; apply bytes_ok_app in Od; apply Od).
    unfold convert_from_bin in H. apply bind_Ok in H as [[v rest] [H X]]. assert (v = k) as -> by congruence. clear X.
    assert (Ld : (List.length data <= List.length d)%nat) by (rewrite D, app_length; lia).
    pose proof (native_decode_sound key_env 0 private_key_ty (0 :: data) (fun _ => eq_refl) eq_refl ltac:(constructor; [unfold is_byte; lia|exact Odata])) as S0.
    rewrite H in S0. destruct S0 as [_ W]; [unfold short in Hs; cbn [List.length]; lia|].
    unfold private_key_ty in H. cbn [from_bin from_bin_with] in H. apply bind_Ok in H as [[j s'] [Hj H]].
    assert (Ej : varuint32_from_bin (0 :: data) = Ok (0, data)) by (change (0 :: data) with ([0] ++ data); rewrite <- (encv_small 0) by lia; apply StreamFacts.varuint32_roundtrip; [lia|exact Odata]).
    assert (j = 0) as -> by congruence. assert (s' = data) as -> by congruence. clear Hj Ej. cbn [map nthz] in H.
    assert (Hx : exists x, from_bin_with (fun _ _ => Undef "fuel") (char_array 32) data = Ok (x, rest) /\ k = VVar 0 x).
    { apply bind_Ok in H as [[x r] [H X]]. exists x. split; [|congruence]. assert (r = rest) as -> by congruence. exact H. }
    destruct Hx as (x & Hx & ->). clear H.
    destruct (char_read _ (fun _ _ => Undef "stack") 32 data x rest Odata Hx) as (key & Dk & Ek).
    exists version, key, rest, chk. split; [now rewrite D, Dk, <- app_assoc|].
    assert (Ek' : enc key_env 0 (char_array 32) x = Ok key) by (rewrite enc_unfold; exact Ek).
    pose proof (V x W key Ek') as Eb. pose proof (ecc_bin_len 32 [] 0 x _ (or_introl eq_refl) W Eb) as Lk. cbn [List.length] in Lk. injection Lk as Lk. auto.
  - intros (version & key & extra & chk & E & Lk & Lc & W & Eb). assert (whole = version :: key ++ extra ++ chk) as -> by congruence. clear E.
    assert (L : List.length (version :: key ++ extra ++ chk) = (List.length (key ++ extra) + 5)%nat) by (cbn [List.length]; rewrite !app_length; lia). rewrite L.
    destruct (Nat.leb_spec 5 (List.length (key ++ extra) + 5)) as [_|F]; [|lia]. cbn [check bind skipn].
    replace (List.length (key ++ extra) + 5 - 4)%nat with (S (List.length (key ++ extra))) by lia.
    rewrite firstn_cons, app_assoc, firstn_app, firstn_all, Nat.sub_diag, firstn_O, app_nil_r.
    inversion Ow as [|v0 d0 Ov Od E0]. apply bytes_ok_app in Od as [_ Od]. apply bytes_ok_app in Od as [Oe _].
    assert (K : exists i x, k = VVar i x /\ 0 <= i < 128).
    { pose proof W as W'. rewrite wf_unfold in W'. unfold private_key_ty in W'. destruct k as [| | | | | |i x]; try discriminate W'. cbn [wf_with] in W'. exists i, x. split; [reflexivity|].
      apply andb_prop in W' as [W1 W2]. unfold fits_u in W1. cbn [map nthz] in W2. destruct (Z.eqb_spec i 0); [lia|]. destruct (Z.eqb_spec (i - 1) 0); [lia|discriminate W2]. }
    destruct K as (i & x & -> & Hi). destruct (variant_bin _ i x W Hi) as (data & Eb2 & _ & _ & Hf & _).
    unfold private_key_ty in Eb. rewrite Eb in Eb2. assert (i = 0) as -> by congruence. assert (data = key) as -> by congruence. exact (Hf extra Oe).
Qed.
Print Assumptions C19_legacy_private_key_accepts.
(** The development key of EOSIO, read from its legacy form, and written in the new one. *)
Example C19_legacy_example : exists k, private_key_from_string (str "5KQwrPbwdL6PhXujxW37FSSQZ1JiwsST4cqQzDeyXtP79zkvFD3") = Ok k /\
  private_key_to_string k = Ok (str "PVT_K1_2bfGi9rYsXQSXXTvJbDAPhHLQUojjaNLomdm3cEJ1XTzMqUt3V") /\
  private_key_from_string (str "5KQwrPbwdL6PhXujxW37FSSQZ1JiwsST4cqQzDeyXtP79zkvFD4") = Ok k /\ private_key_from_string (str "5KQw") = Err E_expected_private_key.
Proof. eexists. split; [vm_compute; reflexivity|]. vm_compute. auto. Qed.
(** Everything else is refused. *)
Example C19_example :
  public_key_from_string (str "EOS1111111111111111111111111111111114T1Ann") = Err E_expected_key /\
  public_key_from_string (str "FOS1111111111111111111111111111111114T1Anm") = Err E_expected_public_key /\
  signature_from_string (str "SIG_") = Err E_expected_signature.
Proof. vm_compute. auto. Qed.
