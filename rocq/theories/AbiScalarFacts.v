(** * Facts about built-in values (proofs only) *)
From Verif Require Import Base Stream StreamFacts TypedBin TypedSpec TypedBinFacts TypedBinLocal BinLemmas Hex Prop_Hex Decimal Ripemd160
  Name NameFacts Prop_Name Asset AssetFacts Prop_Asset Time TimeFacts TimeText Prop_Time Base58 Keys KeysFacts Prop_Keys
  JsonInt JsonIntFacts Prop_JsonInt Utf8 Json JsonSpec JsonWrite Prop_Json Abi Fpconv FpconvSpec FpconvReal FpconvPrint AbiScalar.

Lemma scalar_ty_ok b : ty_ok (scalar_ty b) = true.
Proof. destruct b; reflexivity. Qed.
Lemma scalar_bytes_enc b v : scalar_ok b v -> TypedBinFacts.enc key_env 0 (scalar_ty b) v = Ok (scalar_bytes b v) /\
  bytes_ok (scalar_bytes b v) /\
  forall r, bytes_ok r -> from_bin key_env 0 (scalar_ty b) (scalar_bytes b v ++ r) = Ok (v, r).
Proof.
  intros H. destruct (rt_bin key_env 0 _ _ H) as (x & Ex & Hx & Hr).
  unfold scalar_bytes. rewrite convert_to_bin_eq, to_bin_vector, Ex. cbn [bind app]. auto.
Qed.
Lemma scalar_to_bin b v out : scalar_ok b v ->
  to_bin vector_stream key_env 0 (scalar_ty b) v out = Ok (out ++ scalar_bytes b v).
Proof. intros H. rewrite to_bin_vector. now rewrite (proj1 (scalar_bytes_enc b v H)). Qed.

(** ** Printing *)
Lemma write_run_plain run : Forall (fun c => 32 <= c < 127) run -> forall fuel, (List.length run <= fuel)%nat -> write_run fuel run = run.
Proof.
  induction 1 as [|c run Hc _ IH]; intros fuel Hf; [destruct fuel; reflexivity|].
  destruct fuel as [|fuel]; [cbn in Hf; lia|]. cbn [write_run].
  assert (V : utf8_validate (firstn 4 (c :: run)) = Some 1%nat).
  { rewrite firstn_cons. unfold utf8_validate. cbv zeta. cbn [nth].
    destruct (c <? 128) eqn:L; [reflexivity|lia]. }
  rewrite V. cbn [firstn skipn app]. f_equal. apply IH. cbn in Hf. lia.
Qed.
Lemma span_plain_all s : Forall (fun c => 32 <= c < 127 /\ c <> 34 /\ c <> 92) s -> span_plain s = (s, []).
Proof.
  induction 1 as [|c s Hc _ IH]; [reflexivity|]. cbn [span_plain].
  assert (P : plain c = true) by (unfold plain; lia). rewrite P, IH. reflexivity.
Qed.
Definition simple (s : bytes) : Prop := Forall (fun c => 32 <= c < 127 /\ c <> 34 /\ c <> 92) s.
Lemma to_json_simple s : simple s -> to_json_string s = 34 :: s ++ [34].
Proof.
  intros H. unfold to_json_string. f_equal. f_equal. cbn [write_body]. destruct s as [|c s]; [reflexivity|].
  rewrite span_plain_all by exact H. rewrite app_nil_r. apply write_run_plain; [|lia].
  eapply Forall_impl; [|exact H]. cbn. lia.
Qed.
Lemma simple_app a b : simple (a ++ b) <-> simple a /\ simple b.
Proof. apply Forall_app. Qed.
Lemma simple_digits s : forallb is_digit s = true -> simple s.
Proof. rewrite forallb_forall. intros H. apply Forall_forall. intros c Hc. specialize (H c Hc). unfold is_digit in H. lia. Qed.
Lemma simple_dec v : 0 <= v -> simple (dec v).
Proof. intros H. apply simple_digits. now apply dec_digits. Qed.
Lemma simple_int v : simple (int_notation v).
Proof.
  unfold int_notation. destruct (v <? 0) eqn:E; [|apply simple_dec; lia].
  apply simple_app. split; [|apply simple_dec; lia]. change (str "-") with [45]. repeat constructor; lia.
Qed.
Lemma simple_hex b : bytes_ok b -> simple (hex b).
Proof.
  intros H. destruct (C17_roundtrip b H) as (_ & _ & _ & U). rewrite forallb_forall in U. apply Forall_forall.
  intros c Hc. specialize (U c Hc). unfold upper_hex_digit in U. lia.
Qed.
Lemma utf8_simple s : simple s -> utf8 s.
Proof.
  induction 1 as [|c s Hc _ IH]; [constructor|]. apply (utf8_app [c] s); auto. apply utf8_ascii. repeat constructor; lia.
Qed.

Lemma int_range sg n z : int_ok sg n z = true -> tmin sg n <= z <= tmax sg n.
Proof.
  unfold int_ok, tmin, tmax, tbits, fits_s, fits_u. intros H. apply andb_true_iff in H as [_ H].
  destruct sg; apply andb_true_iff in H as [H1 H2]; lia.
Qed.
Lemma int_range_conv sg n z : int_size n -> tmin sg n <= z <= tmax sg n -> int_ok sg n z = true.
Proof.
  unfold int_ok, tmin, tmax, tbits, fits_s, fits_u, int_size. cbn [In]. intros Hn H.
  assert ((0 <? Z.of_nat n) && (Z.of_nat n <=? 16) = true) as -> by lia. cbn [andb]. destruct sg; lia.
Qed.
Lemma forallb_bytes l : forallb (wf_with (fun n v => false) (TInt false 1)) l = true -> bytes_ok (map byte_of l) /\ l = map VInt (map byte_of l).
Proof.
  induction l as [|x l IH]; intros H; [split; [constructor|reflexivity]|]. cbn [forallb] in H. apply andb_true_iff in H as [H1 H2].
  destruct x; try discriminate. cbn [wf_with] in H1. apply int_range in H1. destruct (IH H2) as [I1 I2].
  split; [constructor; auto|cbn [map byte_of]; congruence].
  unfold is_byte, byte_of. unfold tmin, tmax, tbits in H1. change (2 ^ (8 * Z.of_nat 1)) with 256 in H1. lia.
Qed.
Lemma fixed_ok n l : wf key_env 0 (byte_array n) (VList l) = true -> List.length l = n /\ bytes_ok (map byte_of l) /\ l = map VInt (map byte_of l).
Proof.
  unfold byte_array. cbn [wf wf_with]. intros H. apply andb_true_iff in H as [H1 H2]. apply Nat.eqb_eq in H1.
  split; [exact H1|]. now apply forallb_bytes.
Qed.
Lemma fixed_ok_conv n d : bytes_ok d -> List.length d = n -> wf key_env 0 (byte_array n) (VList (map VInt d)) = true.
Proof.
  intros H L. unfold byte_array. cbn [wf wf_with]. rewrite map_length, L, Nat.eqb_refl. cbn [andb]. clear L.
  induction H as [|c d Hc _ IH]; [reflexivity|]. cbn [map forallb]. rewrite IH, andb_true_r. cbn [wf_with].
  apply int_range_conv; [cbv; auto|]. unfold is_byte in Hc. unfold tmin, tmax, tbits. change (2 ^ (8 * Z.of_nat 1)) with 256. lia.
Qed.
Lemma hex_json d : bytes_ok d -> to_json_hex d = to_json_string (hex d).
Proof. intros H. rewrite to_json_simple by now apply simple_hex. reflexivity. Qed.
Lemma int_json sg n z : int_size n -> int_ok sg n z = true ->
  int_to_json sg n z = Ok (print (if Nat.ltb 4 n then JStr (int_notation z) else JNum (int_notation z))).
Proof.
  intros Hn H. rewrite C21_print by (auto; now apply int_range). f_equal. unfold quoted.
  destruct (Nat.ltb 4 n); cbn [print]; [|reflexivity]. rewrite to_json_simple by apply simple_int. reflexivity.
Qed.

Lemma jstr_print r : (let* t := r in Ok (to_json_string t)) = let* j := jstr r in Ok (print j).
Proof. destruct r; reflexivity. Qed.

Lemma scalar_to_json_spec E b v : scalar_ok b v -> scalar_to_json E b v = let* j := scalar_jv E b v in Ok (print j).
Proof.
  unfold scalar_ok. intros H.
  destruct b; cbn [scalar_ty] in H;
    try (destruct v; try discriminate H; cbn [scalar_to_json scalar_jv bind]; cbn [wf wf_with] in H;
         match goal with |- int_to_json ?sg ?n ?z = _ => rewrite (int_json sg n z); [reflexivity|cbv; tauto|exact H] end);
    try (destruct v; try discriminate H; reflexivity);
    try (destruct v; try discriminate H; cbn [scalar_to_json scalar_jv]; apply jstr_print);
    try (cbn [scalar_to_json scalar_jv]; apply jstr_print).
  - (* float32 *) destruct v; try discriminate H. cbn [wf wf_with] in H. match type of H with Nat.eqb _ ?k && _ && _ = true => assert (k = 4%nat) by lia; subst k end.
    cbn [scalar_to_json scalar_jv]. unfold fp_to_json, float_jv. destruct (float_mag 4 bits =? float_inf 4).
    + cbn [bind print]. destruct (float_sign 4 bits); reflexivity.
    + destruct (is_nan 4 bits); [reflexivity|]. cbv zeta. destruct (fpconv_dtoa (as_double 4 bits)) as [[|? ?]| |]; reflexivity.
  - destruct v; try discriminate H. cbn [wf wf_with] in H. match type of H with Nat.eqb _ ?k && _ && _ = true => assert (k = 8%nat) by lia; subst k end.
    cbn [scalar_to_json scalar_jv]. unfold fp_to_json, float_jv. destruct (float_mag 8 bits =? float_inf 8).
    + cbn [bind print]. destruct (float_sign 8 bits); reflexivity.
    + destruct (is_nan 8 bits); [reflexivity|]. cbv zeta. destruct (fpconv_dtoa (as_double 8 bits)) as [[|? ?]| |]; reflexivity.
  - destruct v; try discriminate H. destruct (fixed_ok _ _ H) as (_ & B & _). cbn [scalar_to_json scalar_jv bind print]. now rewrite hex_json.
  - destruct v; try discriminate H. cbn [scalar_to_json scalar_jv bind print]. rewrite hex_json; [reflexivity|].
    cbn [wf wf_with] in H. apply andb_true_iff in H as [H _]. now apply bytes_okb_spec.
  - destruct v; try discriminate H. destruct (fixed_ok _ _ H) as (_ & B & _). cbn [scalar_to_json scalar_jv bind print]. now rewrite hex_json.
  - destruct v; try discriminate H. destruct (fixed_ok _ _ H) as (_ & B & _). cbn [scalar_to_json scalar_jv bind print]. now rewrite hex_json.
  - destruct v; try discriminate H. destruct (fixed_ok _ _ H) as (_ & B & _). cbn [scalar_to_json scalar_jv bind print]. now rewrite hex_json.
  - (* asset *) destruct v; try discriminate H.
    destruct l as [|[z| | | | | |] [|[z'| | | | | |] [|? ?]]]; try (cbn in H; rewrite ?andb_false_r in H; discriminate H).
    cbn [scalar_to_json scalar_jv]. apply jstr_print.
Qed.

(** ** Parsing *)
(** What the model assumes about the C library's float parser: it returns a bit
    pattern of the right size. *)
Definition float_lib_ok (E : float_lib) : Prop :=
  forall n s x, fl_parse E n s = Some x -> 0 <= x < 2 ^ (8 * Z.of_nat n).
Definition text_ok (s : bytes) : Prop := bytes_ok s /\ short s.

Lemma vint_Ok r v : vint r = Ok v -> exists z, r = Ok z /\ v = VInt z.
Proof. unfold vint. intros H. apply bind_Ok in H as [z [E H]]. exists z. split; auto. congruence. Qed.

Lemma int_text_ok sg n s v : int_size n -> vint (from_json_int sg n s) = Ok v -> exists z, v = VInt z /\ int_ok sg n z = true.
Proof.
  intros Hn H. apply vint_Ok in H as (z & E & ->). exists z. split; [reflexivity|].
  apply C20_accepts_exactly in E; auto. apply int_range_conv; tauto.
Qed.
Lemma u32_range z : 0 <= u32 z < 2 ^ 32. Proof. apply Z.mod_pos_bound. lia. Qed.
Lemma u64_range z : 0 <= u64 z < 2 ^ 64. Proof. apply Z.mod_pos_bound. lia. Qed.
Lemma to_signed64 z : 0 <= z < 2 ^ 64 -> - 2 ^ 63 <= to_signed 64 z < 2 ^ 63.
Proof. unfold to_signed. change (2 ^ (64 - 1)) with (2 ^ 63). destruct (z <? 2 ^ 63) eqn:E; lia. Qed.
Lemma fraction_us_range f : forall scale s r, 0 <= r < 2 ^ 64 -> 0 <= fst (fraction_us f scale s r) < 2 ^ 64.
Proof.
  induction f as [|f IH]; intros scale s r H; cbn [fraction_us]; [exact H|]. destruct s as [|c s]; [exact H|].
  destruct ((1 <=? scale) && is_digit c); [|exact H]. apply IH. apply u64_range.
Qed.
Lemma time_point_range m s z : time_point_from_json_string m s = Ok z -> - 2 ^ 63 <= z < 2 ^ 63.
Proof.
  unfold time_point_from_json_string, string_to_utc_microseconds. intros H. apply bind_Ok in H as [r [H1 H]].
  apply bind_Ok in H1 as [r1 [H1 Hr]]. destruct r as [us|]; [|discriminate].
  assert (z = to_signed 64 us) by congruence. subst z. apply to_signed64.
  destruct r1 as [[us' rest]|]; [|discriminate]. cbn [option_map fst] in Hr. assert (us' = us) by congruence. subst us'. clear Hr H.
  unfold string_to_utc_microseconds_at in H1. apply bind_Ok in H1 as [[[sec r]|] [_ H]]; [|discriminate].
  cbv zeta in H. destruct r as [|c r].
  - assert (us = u64 (sec * 1000000)) by congruence. subst us. apply u64_range.
  - destruct (negb (c =? 46)); [discriminate|].
    pose proof (fraction_us_range 7 100000 r (u64 (sec * 1000000)) (u64_range _)) as R.
    destruct (fraction_us 7 100000 r (u64 (sec * 1000000))) as [x q]. destruct q; [|discriminate].
    assert (us = x) by congruence. subst us. exact R.
Qed.
Lemma time_point_sec_range m s z : time_point_sec_from_json_string m s = Ok z -> 0 <= z < 2 ^ 32.
Proof.
  unfold time_point_sec_from_json_string, string_to_utc_seconds. intros H. apply bind_Ok in H as [r [H1 H]].
  apply bind_Ok in H1 as [r1 [H1 Hr]]. destruct r as [x|]; [|discriminate]. assert (z = x) by congruence. subst z.
  destruct r1 as [[x' rest]|]; [|discriminate]. cbn [option_map fst] in Hr. assert (x' = x) by congruence. subst x'. clear Hr H.
  unfold string_to_utc_seconds_at in H1. destruct (parse_fields s) as [[[[[[[y mo] d] h] mi] sec] q]|]; [|discriminate].
  apply bind_Ok in H1 as [u [U H]]. cbv zeta in H. unfold utc_seconds in U. apply bind_Ok in U as [p [_ U]].
  assert (0 <= u < 2 ^ 32) by (assert (u = u32 (p + h * 3600 + mi * 60 + sec)) by congruence; subst u; apply u32_range).
  destruct (eat_fraction true q); [|discriminate]. assert (u = x) by congruence. lia.
Qed.
Lemma fits_s64 z : - 2 ^ 63 <= z < 2 ^ 63 -> int_ok true 8 z = true.
Proof. intros H. apply int_range_conv; [cbv; tauto|]. unfold tmin, tmax, tbits. change (8 * Z.of_nat 8 - 1) with 63. lia. Qed.
Lemma fits_u64 z : 0 <= z < 2 ^ 64 -> int_ok false 8 z = true.
Proof. intros H. apply int_range_conv; [cbv; tauto|]. unfold tmin, tmax, tbits. change (8 * Z.of_nat 8) with 64. lia. Qed.
Lemma fits_u32 z : 0 <= z < 2 ^ 32 -> int_ok false 4 z = true.
Proof. intros H. apply int_range_conv; [cbv; tauto|]. unfold tmin, tmax, tbits. change (8 * Z.of_nat 4) with 32. lia. Qed.

Lemma fixed_text_ok n s v : fixed_from_json n s = Ok v -> wf key_env 0 (byte_array n) v = true.
Proof.
  unfold fixed_from_json, check. intros H. apply bind_Ok in H as [d [Hd H]]. destruct (Nat.eqb (List.length d) n) eqn:L; [|discriminate].
  cbn [bind] in H. assert (v = VList (map VInt d)) by congruence. subst v. apply fixed_ok_conv; [|now apply Nat.eqb_eq].
  unfold from_json_hex in Hd. apply bind_Ok in Hd as [_ [_ Hd]]. destruct (unhex s) as [r|] eqn:U; [|discriminate].
  assert (r = d) by congruence. subst r. now apply C17_hex_of_unhex in U.
Qed.
Lemma hex_text_ok s d : text_ok s -> from_json_hex s = Ok d -> bytes_ok d /\ Z.of_nat (List.length d) < 2 ^ 30 /\ unhex s = Some d /\ (List.length s = 2 * List.length d)%nat.
Proof.
  intros [_ Hs] Hd. unfold from_json_hex in Hd. apply bind_Ok in Hd as [_ [_ Hd]]. destruct (unhex s) as [r|] eqn:U; [|discriminate].
  assert (r = d) by congruence. subst r. destruct (C17_hex_of_unhex _ _ U) as [H1 H2]. split; auto.
  assert (L : List.length (hex d) = List.length s) by (rewrite H2; apply map_length).
  destruct (C17_roundtrip d H1) as (_ & _ & L2 & _). unfold short in Hs. split; [|split; [reflexivity|]]; lia.
Qed.
Lemma key_ok t : In t [public_key_ty; private_key_ty; signature_ty] -> forall b v,
  bytes_ok b -> Z.of_nat (List.length b) < 2 ^ 32 -> convert_from_bin key_env 0 t b = Ok v -> wf key_env 0 t v = true.
Proof.
  intros Ht b v Hb Hl H. unfold convert_from_bin in H. apply bind_Ok in H as [[x rest] [H Hx]].
  assert (x = v) by congruence. subst x.
  assert (T : ty_ok t = true) by (cbn [In] in Ht; destruct Ht as [<-|[<-|[<-|[]]]]; reflexivity).
  pose proof (native_decode_sound key_env 0 t b (fun _ => eq_refl) T Hb Hl) as Q. rewrite H in Q. tauto.
Qed.
Lemma public_key_ok s v : short s -> public_key_from_string s = Ok v -> wf key_env 0 public_key_ty v = true.
Proof.
  intros Hs H. apply (C19_public_key_accepts s v Hs) in H as (p & i & suf & body & Hin & -> & Hc).
  apply short_app in Hs. cbn [In public_key_forms] in Hin. 
  assert (0 <= i <= 2) by (destruct Hin as [X|[X|[X|[X|[]]]]]; assert (i = 0 \/ i = 1 \/ i = 2) by (injection X; intros; lia); lia).
  eapply C19_checked_body_wellformed; eauto. left; reflexivity.
Qed.
Lemma signature_ok s v : short s -> signature_from_string s = Ok v -> wf key_env 0 signature_ty v = true.
Proof.
  intros Hs H. apply (C19_signature_accepts s v Hs) in H as (p & i & suf & body & Hin & -> & Hc).
  apply short_app in Hs. cbn [In signature_forms] in Hin. 
  assert (0 <= i <= 2) by (destruct Hin as [X|[X|[X|[]]]]; assert (i = 0 \/ i = 1 \/ i = 2) by (injection X; intros; lia); lia).
  eapply C19_checked_body_wellformed; eauto. right; right; left; reflexivity.
Qed.
Lemma private_key_ok s v : short s -> private_key_from_string s = Ok v -> wf key_env 0 private_key_ty v = true.
Proof.
  intros Hs H. destruct (starts s (str "PVT_")) eqn:P.
  - apply (C19_private_key_accepts s v Hs P) in H as (p & i & suf & body & Hin & -> & Hc).
    apply short_app in Hs. cbn [In private_key_forms] in Hin. 
    assert (0 <= i <= 2) by (destruct Hin as [X|[X|[]]]; assert (i = 0 \/ i = 1 \/ i = 2) by (injection X; intros; lia); lia).
    eapply C19_checked_body_wellformed; eauto. right; left; reflexivity.
  - unfold private_key_from_string in H. rewrite P in H.
    assert (Q : forall x, starts s (str "PVT_" ++ x) = true -> False).
    { intros x Hx. apply starts_spec in Hx. rewrite Hx in P. unfold starts in P.
      rewrite <- app_assoc, firstn_app, firstn_all2, Nat.sub_diag, app_nil_r, beq_refl in P by lia. discriminate. }
    destruct (starts s (str "PVT_K1_")) eqn:P1; [exfalso; exact (Q (str "K1_") P1)|].
    destruct (starts s (str "PVT_R1_")) eqn:P2; [exfalso; exact (Q (str "R1_") P2)|].
    apply bind_Ok in H as [w [Hw H]]. apply bind_Ok in H as [_ [_ H]].
    pose proof (decoded_len _ _ Hw) as L. assert (Bw : bytes_ok w) by (apply from_base58_ok with (s := s); exact Hw).
    refine (key_ok private_key_ty _ _ v _ _ H); [right; left; reflexivity| |].
    + unfold bytes_ok. apply Forall_forall. intros x Hx. 
      assert (Hi : In x (0 :: skipn 1 w)) by (rewrite <- (firstn_skipn (List.length w - 4) (0 :: skipn 1 w)); apply in_or_app; left; exact Hx).
      destruct Hi as [<-|Hi]; [unfold is_byte; lia|]. unfold bytes_ok in Bw. rewrite Forall_forall in Bw. apply Bw.
      rewrite <- (firstn_skipn 1 w). apply in_or_app. right; exact Hi.
    + rewrite firstn_length. unfold short in Hs. lia.
Qed.
Lemma symbol_range s v : string_to_symbol s = Some v -> 0 <= v < 2 ^ 64.
Proof. intros H. apply C10_symbol_parser in H as (? & ? & ? & _ & _ & _ & _ & R & _). exact R. Qed.
Lemma symbol_code_range s v : string_to_symbol_code s = Some v -> 0 <= v < 2 ^ 64.
Proof.
  intros H. unfold string_to_symbol_code in H. destruct (string_to_symbol_code_at true s) as [[x r]|] eqn:Q; [|discriminate].
  cbn [option_map fst] in H. assert (x = v) by congruence. subst x. apply code_at_inv in Q.
  destruct Q as (k & l & Q). assert (C : code_text l /\ v = le_val l) by tauto. destruct C as [C ->]. pose proof (code_text_range l C). lia.
Qed.
Lemma asset_text_range s a sym : string_to_asset s = Some (a, sym) -> - 2 ^ 63 <= a < 2 ^ 63 /\ 0 <= sym < 2 ^ 64.
Proof.
  intros H. apply C12_asset_parser in H as (k1 & neg & ip & frac & k2 & l & _ & _ & _ & C & -> & ->). split.
  - unfold wrap_s. apply to_signed64. apply Z.mod_pos_bound. lia.
  - unfold symbol_make. pose proof (code_text_range l C). pose proof (Z.mod_pos_bound (Z.of_nat (List.length (frac_digits frac))) 256 ltac:(lia)).
    rewrite pack_symbol by lia. lia.
Qed.

Lemma scalar_from_text_ok E b s v : float_lib_ok E -> text_ok s -> scalar_from_text E b s = Ok v -> scalar_ok b v.
Proof.
  intros HE Hs H. unfold scalar_ok.
  destruct b; cbn [scalar_from_text] in H; cbn [scalar_ty]; try discriminate H;
    try (apply int_text_ok in H as (z & -> & H); [exact H|cbv; tauto]);
    try (now apply fixed_text_ok in H).
  - (* float32 *) unfold fp_from_json in H. apply bind_Ok in H as [_ [_ H]]. destruct (fl_parse E 4 s) as [x|] eqn:P; [|discriminate].
    apply HE in P. assert (v = VFloat 4 x) by congruence. subst v. cbn [wf wf_with]. unfold fits_u. change (8 * Z.of_nat 4) with 32 in *. cbn [Nat.eqb andb orb]. lia.
  - unfold fp_from_json in H. apply bind_Ok in H as [_ [_ H]]. destruct (fl_parse E 8 s) as [x|] eqn:P; [|discriminate].
    apply HE in P. assert (v = VFloat 8 x) by congruence. subst v. cbn [wf wf_with]. unfold fits_u. change (8 * Z.of_nat 8) with 64 in *. cbn [Nat.eqb andb orb]. lia.
  - apply vint_Ok in H as (z & H & ->). apply fits_s64. eapply time_point_range; eauto.
  - apply vint_Ok in H as (z & H & ->). apply fits_u32. eapply time_point_sec_range; eauto.
  - apply vint_Ok in H as (z & H & ->). apply fits_u32. unfold block_timestamp_from_json_string in H. apply bind_Ok in H as [tp [_ H]].
    assert (z = block_timestamp_of_time_point tp) by congruence. subst z. apply u32_range.
  - assert (v = VInt (name_from_json_string s)) by congruence. subst v. apply fits_u64. apply C09_json_name.
  - apply bind_Ok in H as [d [H Hv]]. assert (v = VStr d) by congruence. subst v. destruct (hex_text_ok s d Hs H) as (B & L & _).
    cbn [wf wf_with]. apply andb_true_iff. split; [now apply bytes_okb_spec|]. unfold len_ok. lia.
  - assert (v = VStr s) by congruence. subst v. destruct Hs as [B L]. unfold short in L.
    cbn [wf wf_with]. apply andb_true_iff. split; [now apply bytes_okb_spec|]. unfold len_ok. lia.
  - eapply public_key_ok; eauto. apply Hs.
  - eapply private_key_ok; eauto. apply Hs.
  - eapply signature_ok; eauto. apply Hs.
  - apply vint_Ok in H as (z & H & ->). apply fits_u64. unfold symbol_from_json_string in H. destruct (string_to_symbol s) as [x|] eqn:Q; [|discriminate].
    apply symbol_range in Q. assert (x = z) by congruence. lia.
  - apply vint_Ok in H as (z & H & ->). apply fits_u64. unfold symbol_code_from_json_string in H. destruct (string_to_symbol_code s) as [x|] eqn:Q; [|discriminate].
    apply symbol_code_range in Q. assert (x = z) by congruence. lia.
  - unfold asset_from_json_string in H. apply bind_Ok in H as [a [H Hv]]. destruct (string_to_asset s) as [[x y]|] eqn:Q; [|discriminate].
    apply asset_text_range in Q as [Q1 Q2]. assert (a = {| amount := x; symbol := y |}) by congruence. subst a. cbn [amount symbol] in Hv.
    assert (v = VList [VInt x; VInt y]) by congruence. subst v. cbn [wf wf_with map forallb2]. rewrite (fits_s64 x Q1), (fits_u64 y Q2). reflexivity.
Qed.

Lemma vu_append v out : 0 <= v < 2 ^ 32 -> varuint32_to_bin vector_stream v out = Ok (out ++ encv v).
Proof.
  intros Hv. rewrite varuint32_to_bin_eq by lia. destruct (Z.ltb_spec v (2 ^ 32)); [|lia].
  rewrite (wbytes_write vector_stream hom_vector). reflexivity.
Qed.
Lemma scalar_write_spec E b s out : float_lib_ok E -> text_ok s -> 
  scalar_write E b s out = let* v := scalar_from_text E b s in Ok (out ++ scalar_bytes b v).
Proof.
  intros HE Hs. unfold scalar_write.
  assert (G : (let* v := scalar_from_text E b s in to_bin vector_stream key_env 0 (scalar_ty b) v out) = let* v := scalar_from_text E b s in Ok (out ++ scalar_bytes b v)).
  { destruct (scalar_from_text E b s) as [v| |] eqn:F; cbn [bind]; try reflexivity. apply scalar_to_bin. eapply scalar_from_text_ok; eauto. }
  destruct b; try exact G. clear G. cbn [scalar_from_text].
  destruct (from_json_hex s) as [d| |] eqn:F.
  - destruct (hex_text_ok s d Hs F) as (B & L & U & Ls). unfold from_json_hex in F. apply bind_Ok in F as [x [Ev _]]. rewrite Ev. cbn [bind].
    assert (Hd : (List.length s / 2 = List.length d)%nat) by (rewrite Ls, Nat.mul_comm; apply Nat.div_mul; lia). rewrite Hd, U.
    assert (Hok : scalar_ok B_bytes (VStr d)). { unfold scalar_ok. cbn [scalar_ty wf wf_with]. apply andb_true_iff. split; [now apply bytes_okb_spec|]. unfold len_ok. lia. }
    pose proof (scalar_to_bin B_bytes (VStr d) out Hok) as T. cbn [scalar_ty to_bin to_bin_with] in T.
    apply bind_Ok in T as [o [T1 T2]]. rewrite T1. cbn [bind]. exact T2.
  - unfold from_json_hex, check in F. destruct (Nat.even (List.length s)) eqn:Ev; unfold check; cbn [bind] in *; [|congruence].
    destruct (unhex s) eqn:U; [discriminate|]. 
    rewrite vu_append; [cbn [bind]; congruence|].
    destruct Hs as [_ Hs]; unfold short in Hs; assert (List.length s / 2 <= List.length s)%nat by (apply Nat.div_le_upper_bound; lia); lia.
  - exfalso. unfold from_json_hex, check in F. destruct (Nat.even (List.length s)); cbn [bind] in F; [|discriminate]. destruct (unhex s); discriminate.
Qed.

(** ** Reading never runs into undefined behaviour, except for a bool *)
Fixpoint tame (t : ty) : bool :=
  match t with
  | TInt _ _ | TFloat _ | TVaruint32 | TVarint32 | TString | TStream => true
  | TVec t | TSeq t | TArr _ t | TCArr _ t | TWrap _ t => tame t
  | TVariant ts | TTuple ts => forallb tame ts
  | _ => false
  end.
Definition no_undef_rd {A} (f : bytes -> res A) : Prop := forall s w, f s <> Undef w.
Lemma bind_no_undef {A B} (x : res A) (f : A -> res B) : (forall w, x <> Undef w) -> (forall a w, x = Ok a -> f a <> Undef w) -> forall w, bind x f <> Undef w.
Proof. intros H1 H2 w. destruct x; cbn [bind]; auto; [discriminate|]. intros _. eapply H1; eauto. Qed.
Lemma sread_no_undef s n w : sread s n <> Undef w.
Proof. unfold sread, check. destruct (_ <=? _); discriminate. Qed.
Lemma varuint_no_undef f bits limit : forall dest shift s w, limit <= shift + 7 * (Z.of_nat f - 1) -> (1 <= f)%nat ->
  varuint_from_bin_loop f bits limit dest shift s <> Undef w.
Proof.
  induction f as [|f IH]; intros dest shift s w H Hf; [lia|]. cbn [varuint_from_bin_loop]. unfold check.
  destruct (Z.ltb_spec shift limit); [|discriminate]. cbn [bind]. destruct s as [|b s]; [discriminate|]. cbn [read_u8 bind].
  destruct (negb _); [|discriminate]. apply IH; lia.
Qed.
Lemma vu32_no_undef s w : varuint32_from_bin s <> Undef w. Proof. apply varuint_no_undef; lia. Qed.
Lemma vu64_no_undef s w : varuint64_from_bin s <> Undef w. Proof. apply varuint_no_undef; lia. Qed.
Lemma read_list_no_undef f n : no_undef_rd f -> no_undef_rd (read_list f n).
Proof.
  intros Hf. induction n as [|n IH]; intros s w; [discriminate|]. cbn [read_list]. apply bind_no_undef; auto. intros [x s'] w' _.
  apply bind_no_undef; auto. intros [l s''] w'' _. discriminate.
Qed.
Lemma tame_no_undef ref : forall t, tame t = true -> no_undef_rd (from_bin_with ref t).
Proof.
  induction t as
    [sg n| |n| | | | |t IH|t IH|t IH|k t IHk IHt|n t IH|n t IH|t IH|ts IH|ts IH|t IH|k t IH|n] using ty_ind'; intros Ht s w; cbn [from_bin_with tame] in *; try discriminate.
  - apply bind_no_undef; [apply sread_no_undef|]. intros [b r] w' _. discriminate.
  - apply bind_no_undef; [apply sread_no_undef|]. intros [b r] w' _. discriminate.
  - apply bind_no_undef; [apply vu32_no_undef|]. intros [b r] w' _. discriminate.
  - apply bind_no_undef; [|intros [b r] w' _; discriminate]. intros w'. unfold varint32_from_bin.
    apply bind_no_undef; [apply vu32_no_undef|]. intros [b r] w'' _. destruct (negb _); discriminate.
  - apply bind_no_undef; [apply vu32_no_undef|]. intros [b r] w' _. apply bind_no_undef; [apply sread_no_undef|]. intros [? ?] w'' _. discriminate.
  - apply bind_no_undef; [apply vu64_no_undef|]. intros [b r] w' _. unfold check_available, check. destruct (_ <=? _); [|discriminate]. cbn [bind].
    apply bind_no_undef; [apply sread_no_undef|]. intros [? ?] w'' _. discriminate.
  - destruct (bitwise_size t) as [x|].
    + apply bind_no_undef; [apply vu64_no_undef|]. intros [b r] w' _. cbv zeta. unfold check_available, check. destruct (_ <=? _); [|discriminate]. cbn [bind].
      destruct (_ <=? _); [|discriminate]. cbn [bind]. apply bind_no_undef; [apply sread_no_undef|]. intros [? ?] w'' _. discriminate.
    + apply bind_no_undef; [apply vu32_no_undef|]. intros [b r] w' _. apply bind_no_undef; [intros; apply read_list_no_undef; auto|]. intros [? ?] w'' _. discriminate.
  - apply bind_no_undef; [apply vu32_no_undef|]. intros [b r] w' _. apply bind_no_undef; [intros; apply read_list_no_undef; auto|]. intros [? ?] w'' _. discriminate.
  - apply bind_no_undef; [intros; apply read_list_no_undef; auto|]. intros [? ?] w'' _. discriminate.
  - apply bind_no_undef; [apply vu32_no_undef|]. intros [b r] w' _. unfold check. destruct (_ =? _); [|discriminate]. cbn [bind].
    destruct (bitwise_size t) as [x|].
    + apply bind_no_undef; [apply sread_no_undef|]. intros [? ?] w'' _. discriminate.
    + apply bind_no_undef; [intros; apply read_list_no_undef; auto|]. intros [? ?] w'' _. discriminate.
  - apply bind_no_undef; [apply vu32_no_undef|]. intros [b r] w' _. destruct (nthz (map (from_bin_with ref) ts) b) as [f|] eqn:N; [|discriminate].
    apply bind_no_undef; [|intros [? ?] w'' _; discriminate]. intros w''.
    assert (F : Forall no_undef_rd (map (from_bin_with ref) ts)).
    { clear - IH Ht. induction IH as [|t ts Hf _ IH]; [constructor|]. cbn [forallb] in Ht. apply andb_true_iff in Ht as [H1 H2]. constructor; auto. }
    eapply TypedBinLocal.nthz_Forall in F; [|exact N]. apply F.
  - apply bind_no_undef; [|intros [? ?] w'' _; discriminate]. clear w. intros w. revert s w.
    induction IH as [|t ts Hf _ IH]; intros s w; [discriminate|]. cbn [forallb] in Ht. apply andb_true_iff in Ht as [H1 H2]. cbn [map read_tuple].
    apply bind_no_undef; [apply Hf; auto|]. intros [x s'] w' _. apply bind_no_undef; [apply IH; auto|]. intros [? ?] w'' _. discriminate.
  - apply IH; auto.
Qed.
Definition bool_hazard : string := "bool object with a representation other than 0 or 1".
Lemma scalar_read_undef b s w : from_bin key_env 0 (scalar_ty b) s = Undef w -> w = bool_hazard.
Proof.
  assert (G : tame (scalar_ty b) = true -> from_bin key_env 0 (scalar_ty b) s = Undef w -> w = bool_hazard).
  { intros T H. exfalso. cbn [from_bin] in H. eapply tame_no_undef; eauto. }
  destruct b; try (apply G; reflexivity). cbn. destruct s as [|x s]; [discriminate|]. cbn [read_u8 bind].
  destruct (x =? 0); [discriminate|]. destruct (x =? 1); [discriminate|]. unfold bool_hazard. congruence.
Qed.

(** ** Printing a value fails only in the cases named here *)
Lemma key_outcome t k sf p : wf key_env 0 t k = true ->
  match key_to_string t k sf p with Ok _ => True | Err e => e = E_invalid_signature | Undef _ => False end.
Proof.
  intros H. destruct (rt_bin key_env 0 _ _ H) as (x & Ex & _). unfold key_to_string. rewrite convert_to_bin_eq, to_bin_vector, Ex. cbn [bind].
  unfold digest_suffix_ripemd160. destruct (ripemd160_digest _); cbn [bind]; auto.
Qed.
Lemma us_outcome md us : match microseconds_to_str md us with Ok _ => True | Err _ => False | Undef w => w = "signed overflow"%string end.
Proof.
  unfold microseconds_to_str. cbv zeta. destruct (from_days _) as [[y mo] d]. unfold int64_op.
  destruct (fits_s _ _); cbn [bind]; auto. destruct md; cbn [bind]; auto.
Qed.
Lemma finite_as_double n x : n = 4%nat \/ n = 8%nat -> 0 <= x < 2 ^ (8 * Z.of_nat n) -> is_nan n x = false -> float_mag n x <> float_inf n -> finite (as_double n x).
Proof.
  intros N H H1 H2. unfold is_nan in H1. apply Z.ltb_ge in H1. unfold float_mag in *. destruct N as [-> | ->].
  - change (as_double 4 x) with (widen x). apply widen_spec. change (8 * Z.of_nat 4) with 32 in *. change (float_inf 4) with (255 * 2 ^ 23) in *. change (32 - 1) with 31 in *. split; [exact H|]. intros E. 
    pose proof (Z.div_mod x (2 ^ 23) ltac:(lia)) as D. pose proof (Z.mod_pos_bound x (2 ^ 23) ltac:(lia)) as B.
    pose proof (Z.div_mod (x / 2 ^ 23) (2 ^ 8) ltac:(lia)) as D2. set (k := x / 2 ^ 23) in *. assert (M : x mod 2 ^ 31 = (k mod 2 ^ 8) * 2 ^ 23 + x mod 2 ^ 23) by (symmetry; apply (Z.mod_unique_pos x (2 ^ 31) (k / 2 ^ 8)); lia).
    lia.
  - change (as_double 8 x) with x. change (8 * Z.of_nat 8) with 64 in *. change (float_inf 8) with (2047 * 2 ^ 52) in *. change (64 - 1) with 63 in *. split; [exact H|]. intros E.
    pose proof (Z.div_mod x (2 ^ 52) ltac:(lia)) as D. pose proof (Z.mod_pos_bound x (2 ^ 52) ltac:(lia)) as B.
    pose proof (Z.div_mod (x / 2 ^ 52) (2 ^ 11) ltac:(lia)) as D2. set (k := x / 2 ^ 52) in *. assert (M : x mod 2 ^ 63 = (k mod 2 ^ 11) * 2 ^ 52 + x mod 2 ^ 52) by (symmetry; apply (Z.mod_unique_pos x (2 ^ 63) (k / 2 ^ 11)); lia).
    lia.
Qed.
(** A float is a string, a number or too long for the buffer. *)
Lemma float_jv_cases n x : n = 4%nat \/ n = 8%nat -> 0 <= x < 2 ^ (8 * Z.of_nat n) ->
  match float_jv n x with
  | Ok j => j = JStr (str "-Infinity") \/ j = JStr (str "Infinity") \/ j = JStr (str "NaN") \/ exists t, j = JNum t /\ number_fits t /\ fpconv_dtoa (as_double n x) = Ok t
  | Err e => False
  | Undef w => w = "buffer overflow"%string
  end.
Proof.
  intros N H. unfold float_jv. destruct (Z.eqb_spec (float_mag n x) (float_inf n)) as [E|E]; [destruct (float_sign n x); auto|]. destruct (is_nan n x) eqn:Nn; [auto|].
  pose proof (dtoa_spec _ (finite_as_double n x N H Nn E)) as D. destruct (fpconv_dtoa (as_double n x)) as [t|e|w]; cbn [bind]; [|exact D|exact (proj1 D)].
  destruct D as (k & K & _ & _ & _ & i & f & e & P & X & _). destruct t as [|c t].
  - exfalso. destruct P as (P & _ & [->|(? & ? & -> & _)] & _); destruct (neg_of (as_double n x)); discriminate P.
  - right; right; right. exists (c :: t). split; [reflexivity|]. split; [|reflexivity]. exists (neg_of (as_double n x)), i, f, e. split; assumption.
Qed.
Lemma float_range n m x : wf key_env 0 (TFloat n) (VFloat m x) = true -> (n = 4%nat \/ n = 8%nat) /\ 0 <= x < 2 ^ (8 * Z.of_nat n).
Proof. cbn [wf wf_with]. unfold fits_u. intros H. lia. Qed.
Definition print_errors : list error := [E_invalid_signature].
Definition print_hazards : list string := ["signed overflow"; "buffer overflow"]%string.
Lemma scalar_jv_outcome E b v : scalar_ok b v ->
  match scalar_jv E b v with Ok _ => True | Err e => In e print_errors | Undef w => In w print_hazards end.
Proof.
  unfold scalar_ok. intros H.
  assert (Us : forall md x, match jstr (microseconds_to_str md x) with Ok _ => True | Err e => In e print_errors | Undef w => In w print_hazards end).
  { intros md x. pose proof (us_outcome md x) as U. destruct (microseconds_to_str md x); cbn [jstr bind]; [exact Logic.I|contradiction|left; now symmetry]. }
  assert (Ks : forall t sf p, wf key_env 0 t v = true -> match jstr (key_to_string t v sf p) with Ok _ => True | Err e => In e print_errors | Undef w => In w print_hazards end).
  { intros t sf p Hw. pose proof (key_outcome t v sf p Hw) as U. destruct (key_to_string t v sf p); cbn [jstr bind]; [exact Logic.I| |contradiction]. subst e. left; reflexivity. }
  assert (Fl : forall n m x, wf key_env 0 (TFloat n) (VFloat m x) = true -> match float_jv n x with Ok _ => True | Err e => In e print_errors | Undef w => In w print_hazards end).
  { intros n m x W. destruct (float_range _ _ _ W) as [N R]. pose proof (float_jv_cases n x N R) as C. destruct (float_jv n x); [exact Logic.I|contradiction|]. right; left; now symmetry. }
  destruct b; cbn [scalar_ty] in H; destruct v; try discriminate H; cbn [scalar_jv]; try exact Logic.I; try (eapply Fl; exact H).
  - apply Us.
  - apply Us.
  - apply Us.
  - unfold public_key_to_string, index. pose proof (variant_index _ _ _ H) as V. cbn [List.length] in V.
    destruct (i =? 0) eqn:I0; [apply Ks; exact H|]. destruct (i =? 1) eqn:I1; [apply Ks; exact H|]. destruct (i =? 2) eqn:I2; [apply Ks; exact H|lia].
  - unfold private_key_to_string, index. pose proof (variant_index _ _ _ H) as V. cbn [List.length] in V.
    destruct (i =? 0) eqn:I0; [apply Ks; exact H|]. destruct (i =? 1) eqn:I1; [apply Ks; exact H|]. lia.
  - unfold signature_to_string, index. pose proof (variant_index _ _ _ H) as V. cbn [List.length] in V.
    destruct (i =? 0) eqn:I0; [apply Ks; exact H|]. destruct (i =? 1) eqn:I1; [apply Ks; exact H|]. destruct (i =? 2) eqn:I2; [apply Ks; exact H|lia].
  - destruct l as [|[z| | | | | |] [|[z'| | | | | |] [|? ?]]]; try (cbn in H; rewrite ?andb_false_r in H; discriminate H).
    cbn [wf wf_with map forallb2] in H. apply andb_true_iff in H as [H1 H2]. apply int_range in H1.
    unfold tmin, tmax, tbits in H1. change (8 * Z.of_nat 8 - 1) with 63 in H1.
    unfold asset_to_string.
    assert (U : (exists u, (if z <? 0 then if z =? - 2 ^ 63 then Undef "signed overflow" else Ok (- z) else Ok z) = Ok u /\ 0 <= u < 2 ^ 63) \/
                (if z <? 0 then if z =? - 2 ^ 63 then Undef "signed overflow" else Ok (- z) else Ok z) = Undef "signed overflow").
    { destruct (Z.ltb_spec z 0); [destruct (Z.eqb_spec z (- 2 ^ 63)); [right; reflexivity|left; exists (- z); split; [reflexivity|lia]]|left; exists z; split; [reflexivity|lia]]. }
    destruct U as [(u & -> & Hu)| ->]; [|left; reflexivity]. cbn [bind].
    destruct (z' mod 256 =? 0).
    + rewrite asset_int_spec; [exact Logic.I| |lia]. change (10 ^ Z.of_nat 21) with 1000000000000000000000. lia.
    + rewrite asset_fraction_spec by (pose proof (Z.mod_pos_bound z' 256); lia).
      rewrite asset_int_spec; [exact Logic.I| |lia]. change (10 ^ Z.of_nat 21) with 1000000000000000000000.
      split; [apply Z.div_pos; [lia|apply Z.pow_pos_nonneg; lia]|]. apply Z.le_lt_trans with u; [|lia]. apply Z.div_le_upper_bound; [apply Z.pow_pos_nonneg; lia|].
      assert (1 <= 10 ^ Z.of_nat (Z.to_nat (z' mod 256))) by (apply Z.lt_pred_le, Z.pow_pos_nonneg; lia). nia.
Qed.
