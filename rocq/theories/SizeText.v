(** * SizeText: how many characters the bytes of a value can become (proofs only, for C61) *)
From Verif Require Import Base Utf8 Stream StreamFacts Decimal TypedBin TypedSpec TypedBinFacts TypedBinLocal BinLemmas Hex Name Asset Time Base58 Base58Facts Keys KeysFacts JsonInt Json JsonSpec Abi Fpconv AbiScalar AbiScalarFacts AbiValue AbiBinSound SizeScalar.

(** ** Strings *)
Lemma write_run_len f : forall run, (len (write_run f run) <= len run)%nat.
Proof.
  induction f as [|f IH]; intros run; cbn [write_run]; [cbn; lia|]. destruct run as [|c run]; [cbn; lia|]. destruct (utf8_validate _) as [n|].
  - rewrite app_length. pose proof (IH (skipn n (c :: run))) as H. rewrite skipn_length in H. rewrite firstn_length. lia.
  - cbn [len]. specialize (IH run). lia.
Qed.
Lemma span_plain_len b : forall d r, span_plain b = (d, r) -> (len d + len r = len b)%nat.
Proof.
  induction b as [|c b IH]; intros d r H; cbn [span_plain] in H; [assert (d = [] /\ r = []) as [-> ->] by (split; congruence); reflexivity|].
  destruct (plain c); [|assert (d = [] /\ r = c :: b) as [-> ->] by (split; congruence); reflexivity].
  destruct (span_plain b) as [d' r']. assert (d = c :: d' /\ r = r') as [-> ->] by (split; congruence). specialize (IH _ _ eq_refl). cbn [len]. lia.
Qed.
Lemma write_escape_len c : (len (write_escape c) <= 6)%nat.
Proof. unfold write_escape. destruct (c =? 34); [cbn; lia|]. destruct (c =? 92); cbn; lia. Qed.
Lemma write_body_len f : forall b, (len (write_body f b) <= 6 * len b)%nat.
Proof.
  induction f as [|f IH]; intros b; cbn [write_body]; [cbn; lia|]. destruct b as [|c0 b0]; [cbn; lia|]. remember (c0 :: b0) as b eqn:Eb. clear Eb.
  destruct (span_plain b) as [run r] eqn:S. apply span_plain_len in S. rewrite app_length. pose proof (write_run_len (len run) run) as W. destruct r as [|c r]; [cbn [len] in *; lia|].
  rewrite app_length. pose proof (write_escape_len c). specialize (IH r). cbn [len] in S. lia.
Qed.
Lemma string_len s : (len (to_json_string s) <= 6 * len s + 2)%nat.
Proof. unfold to_json_string. cbn [len]. rewrite app_length. pose proof (write_body_len (S (len s)) s). cbn [len]. lia. Qed.
Lemma simple_len s : simple s -> len (to_json_string s) = (len s + 2)%nat.
Proof. intros H. rewrite (to_json_simple s H). cbn [len]. rewrite app_length. cbn [len]. lia. Qed.

(** ** Numbers *)
Lemma dec_loop_len f : forall n acc, (len (dec_loop f n acc) <= f + len acc)%nat.
Proof.
  induction f as [|f IH]; intros n acc; cbn [dec_loop]; [lia|]. destruct (n / 10 =? 0); [cbn [len]; lia|]. specialize (IH (n / 10) ((48 + n mod 10) :: acc)). cbn [len] in IH. lia.
Qed.
Lemma dec_len k v : 0 <= v < 2 ^ Z.of_nat (S k) -> (len (dec v) <= S k)%nat.
Proof.
  intros H. unfold dec. pose proof (dec_loop_len (S (Z.to_nat (Z.log2 v))) v []) as L. cbn [len] in L.
  assert (Z.log2 v <= Z.of_nat k). { destruct (Z.eq_dec v 0) as [->|N]; [cbn; lia|]. enough (Z.log2 v < Z.of_nat (S k)) by lia. apply Z.log2_lt_pow2; lia. }
  lia.
Qed.
Lemma notation_len sg n z : (1 <= n)%nat -> int_ok sg n z = true -> (len (int_notation z) <= 8 * n + 1)%nat.
Proof.
  intros N H. apply int_range in H. unfold tmin, tmax, tbits in H.
  assert (P : 2 ^ (8 * Z.of_nat n) = 2 ^ Z.of_nat (S (8 * n - 1))) by (f_equal; lia). assert (Q : 2 ^ (8 * Z.of_nat n - 1) < 2 ^ Z.of_nat (S (8 * n - 1))) by (apply Z.pow_lt_mono_r; lia).
  unfold int_notation. destruct (Z.ltb_spec z 0) as [Hz|Hz].
  - rewrite app_length. change (len (str "-")) with 1%nat. pose proof (dec_len (8 * n - 1) (- z) ltac:(destruct sg; lia)). lia.
  - pose proof (dec_len (8 * n - 1) z ltac:(destruct sg; lia)). lia.
Qed.
Lemma hex_length b : len (hex b) = (2 * len b)%nat.
Proof. induction b as [|c b IH]; [reflexivity|]. cbn [hex len]. rewrite IH. lia. Qed.
Lemma dtoa_len bits t : fpconv_dtoa bits = Ok t -> (len t <= 25)%nat.
Proof.
  unfold fpconv_dtoa. intros H. destruct (negb (Nat.eqb _ 0)).
  - match type of H with Ok ?y = _ => assert (t = y) by congruence end. subst t. rewrite app_length. unfold filter_special. destruct (negb (bits / 2 ^ 63 =? 0)); cbn [len]; destruct (_ =? 0); cbn [len]; [lia| |lia|];
      (destruct (negb _); cbn [len]; [lia|destruct (negb _); cbn [len]; change (len (str "nan")) with 3%nat; change (len (str "inf")) with 3%nat; lia]).
  - apply bind_Ok in H as ([ds K] & _ & H). apply bind_Ok in H as (u & Hu & H). match type of H with Ok ?y = _ => assert (t = y) by congruence end. subst t.
    unfold emit_digits in Hu. destruct (Nat.leb_spec (len (emit_text ds K (negb (bits / 2 ^ 63 =? 0)))) (24 - len (if negb (bits / 2 ^ 63 =? 0) then [45] else []))) as [L|L]; [|discriminate].
    assert (u = emit_text ds K (negb (bits / 2 ^ 63 =? 0))) by congruence. subst u. rewrite app_length. destruct (negb (bits / 2 ^ 63 =? 0)); cbn [len] in *; lia.
Qed.
Lemma float_text n bits j : float_jv n bits = Ok j -> (len (print j) <= 68)%nat.
Proof.
  unfold float_jv. destruct (_ =? _).
  - intros H. match type of H with Ok ?y = _ => assert (j = y) by congruence end. subst j. cbn [print]. destruct (float_sign n bits).
    + pose proof (string_len (str "-Infinity")) as L. change (len (str "-Infinity")) with 9%nat in L. lia.
    + pose proof (string_len (str "Infinity")) as L. change (len (str "Infinity")) with 8%nat in L. lia.
  - destruct (is_nan n bits).
    + intros H. match type of H with Ok ?y = _ => assert (j = y) by congruence end. subst j. cbn [print]. pose proof (string_len (str "NaN")) as L. change (len (str "NaN")) with 3%nat in L. lia.
    + intros H. apply bind_Ok in H as (t & Ht & H). apply dtoa_len in Ht. destruct t as [|c t]; [discriminate|]. assert (j = JNum (c :: t)) by congruence. subst j. cbn [print]. lia.
Qed.

(** ** Times, names, assets *)
Lemma append_uint_len v k : len (append_uint v k) = k.
Proof.
  unfold append_uint. assert (G : forall k v acc, len (append_uint_loop k v acc) = (k + len acc)%nat) by (induction k0 as [|k0 IH]; intros; cbn [append_uint_loop]; [reflexivity|rewrite IH; cbn [len]; lia]).
  rewrite G. cbn [len]. lia.
Qed.
Lemma time_len m us t : microseconds_to_str m us = Ok t -> len t = 23%nat.
Proof.
  unfold microseconds_to_str. destruct (from_days _) as [[y mo] d]. intros H. apply bind_Ok in H as (? & _ & H). match type of H with Ok ?y = _ => assert (E : t = y) by congruence end. rewrite E. clear.
  rewrite !app_length, !append_uint_len. reflexivity.
Qed.
Lemma time_text_len m z t : time_point_to_json_string m z = Ok t \/ time_point_sec_to_json_string m z = Ok t \/ block_timestamp_to_json_string m z = Ok t -> len t = 23%nat.
Proof. unfold block_timestamp_to_json_string, time_point_to_json_string, time_point_sec_to_json_string. intros [H|[H|H]]; apply time_len in H; exact H. Qed.
Lemma name_len z : (len (name_to_string z) <= 13)%nat.
Proof.
  unfold name_to_string. rewrite firstn_length. assert (G : forall n v acc, len (name_chars n v acc) = (n + len acc)%nat) by (induction n as [|n IH]; intros; cbn [name_chars]; [reflexivity|rewrite IH; cbn [len]; lia]).
  rewrite G. cbn [len]. lia.
Qed.
Lemma code_len z : (len (symbol_code_to_string z) <= 8)%nat.
Proof.
  unfold symbol_code_to_string. assert (G : forall n v, (len (symbol_code_to_string_loop n v) <= n)%nat) by (induction n as [|n IH]; intros; cbn [symbol_code_to_string_loop]; [cbn; lia|destruct (_ <? _); cbn [len]; [specialize (IH (Z.shiftr v 8)); lia|lia]]).
  apply G.
Qed.
Lemma symbol_len z : (len (symbol_to_string z) <= 17)%nat.
Proof.
  unfold symbol_to_string. rewrite !app_length. pose proof (code_len (Z.shiftr z 8)). assert (0 <= Z.land z 255 < 2 ^ Z.of_nat 8) by (change 255 with (Z.ones 8); rewrite Z.land_ones by lia; apply Z.mod_pos_bound; lia).
  pose proof (dec_len 7 (Z.land z 255) H0). cbn [len]. lia.
Qed.
Lemma asset_fraction_len p : forall u acc u' r, asset_fraction p u acc = (u', r) -> len r = (p + len acc)%nat.
Proof.
  induction p as [|p IH]; intros u acc u' r H; cbn [asset_fraction] in H; [assert (r = acc) by congruence; subst; reflexivity|]. apply IH in H. rewrite H, app_length. cbn [len]. lia.
Qed.
Lemma asset_int_len f : forall u acc r, asset_int f u acc = Ok r -> (len r <= f + len acc)%nat.
Proof.
  induction f as [|f IH]; intros u acc r H; cbn [asset_int] in H; [discriminate|]. destruct (_ =? _).
  - match type of H with Ok ?y = _ => assert (r = y) by congruence end. subst r. rewrite app_length. cbn [len]. lia.
  - apply IH in H. rewrite app_length in H. cbn [len] in H. lia.
Qed.
Lemma asset_len a s t : asset_to_string a s = Ok t -> (len t <= 287)%nat.
Proof.
  unfold asset_to_string. intros H. apply bind_Ok in H as (u & _ & H). cbv zeta in H. pose proof (Z.mod_pos_bound s 256 ltac:(lia)) as P.
  assert (X : exists u' r, (if s mod 256 =? 0 then (u, []) else let (u', r) := asset_fraction (Z.to_nat (s mod 256)) u [] in (u', r ++ [46])) = (u', r) /\ (len r <= 256)%nat).
  { destruct (s mod 256 =? 0); [exists u, []; split; [reflexivity|cbn; lia]|]. destruct (asset_fraction (Z.to_nat (s mod 256)) u []) as [u' r] eqn:A. exists u', (r ++ [46]). split; [reflexivity|].
    apply asset_fraction_len in A. rewrite app_length. cbn [len] in *. lia. }
  destruct X as (u' & r & X & L). rewrite X in H. apply bind_Ok in H as (w & Hw & H). apply asset_int_len in Hw. match type of H with Ok ?y = _ => assert (t = y) by congruence end. subst t.
  rewrite !app_length, rev_length. pose proof (code_len (Z.shiftr s 8)). destruct (a <? 0); [rewrite app_length|]; cbn [len]; lia.
Qed.

(** ** Keys *)
Lemma base58_simple x : simple [nth (Z.to_nat (Z.rem x 58)) base58_array 0].
Proof.
  assert (G : forallb (fun c => (32 <=? c) && (c <? 127) && negb (c =? 34) && negb (c =? 92)) base58_chars = true) by reflexivity. rewrite forallb_forall in G.
  constructor; [|constructor]. assert (R : (Z.to_nat (Z.rem x 58) < 58)%nat). { pose proof (Z.rem_bound_abs x 58 ltac:(lia)). lia. }
  unfold base58_array. rewrite app_nth1 by exact R. specialize (G _ (nth_In base58_chars 0 (n := Z.to_nat (Z.rem x 58)) R)). lia.
Qed.
Lemma push_base58_spec f : forall c, simple (push_base58 f c) /\ (len (push_base58 f c) <= f)%nat.
Proof.
  induction f as [|f IH]; intros c; cbn [push_base58]; [split; [constructor|cbn; lia]|]. destruct (c =? 0); [split; [constructor|cbn; lia]|].
  destruct (IH (Z.quot c 58)) as [I1 I2]. split; [change (simple ([nth (Z.to_nat (Z.rem c 58)) base58_array 0] ++ push_base58 f (Z.quot c 58))); apply simple_app; split; [apply base58_simple|exact I1]|cbn [len]; lia].
Qed.
Lemma mul256_spec r : forall c, simple (mul256_add c r) /\ (len (mul256_add c r) <= 6 + len r)%nat.
Proof.
  induction r as [|x r IH]; intros c; cbn [mul256_add]; [cbn [len]; rewrite Nat.add_0_r; apply push_base58_spec|].
  match goal with |- simple (?h :: ?t) /\ _ => destruct (IH (Z.quot (Z.shiftl (base58_map x) 8 + c) 58)) as [I1 I2]; split; [change (simple ([h] ++ t)); apply simple_app; split; [apply base58_simple|exact I1]|cbn [len]; lia] end.
Qed.
Lemma base58_text b : simple (binary_to_base58 b) /\ (len (binary_to_base58 b) <= 7 * len b)%nat.
Proof.
  unfold binary_to_base58. assert (G : forall b r, simple r -> simple (fold_left (fun r b => mul256_add b r) b r) /\ (len (fold_left (fun r b => mul256_add b r) b r) <= 6 * len b + len r)%nat).
  { clear b. induction b as [|c b IH]; intros r R; cbn [fold_left len]; [split; [exact R|lia]|]. destruct (mul256_spec r c) as [M1 M2]. destruct (IH _ M1) as [I1 I2]. split; [exact I1|lia]. }
  destruct (G b [] ltac:(constructor)) as [G1 G2]. cbn [len] in G2. assert (L : (leading 0 b <= len b)%nat) by (clear; induction b as [|c b IH]; cbn [leading]; [lia|destruct (c =? 0); cbn [len]; lia]).
  split; [|rewrite rev_length, app_length, repeat_length; lia]. apply Forall_rev. apply simple_app. split; [exact G1|]. clear. induction (leading 0 b) as [|n IH]; constructor; [lia|exact IH].
Qed.
Lemma key_to_string_len t v suffix prefix s p : In t [public_key_ty; private_key_ty; signature_ty] -> simple prefix -> (len prefix <= 7)%nat -> bytes_ok p ->
  from_bin key_env 0 t p = Ok (v, []) -> key_to_string t v suffix prefix = Ok s -> (len (to_json_string s) <= 35 * len p + 37)%nat.
Proof.
  intros Ht P LP B F H. unfold key_to_string in H. rewrite convert_to_bin_eq, to_bin_vector in H. destruct (TypedBinFacts.enc key_env 0 t v) as [x| |] eqn:X; try discriminate H. cbn [bind app] in H.
  apply bind_Ok in H as (d & _ & H). match type of H with Ok ?y = _ => assert (s = y) by congruence end. subst s.
  assert (L : (len x <= 5 * len p)%nat). { rewrite from_bin_unfold in F. rewrite enc_unfold in X. destruct (key_grows t Ht _ _ _ _ _ _ B F X) as (c & -> & L). rewrite app_nil_r in *. exact L. }
  destruct (base58_text (skipn 1 (x ++ firstn 4 d))) as [B1 B2]. rewrite skipn_length, app_length, firstn_length in B2. rewrite simple_len by (apply simple_app; split; assumption). rewrite app_length. lia.
Qed.

(** ** Built-in values *)
Lemma whole (f : istream -> res (val * istream)) p v : (forall r, f (p ++ r) = Ok (v, r)) -> f p = Ok (v, []).
Proof. intros H. specialize (H []). now rewrite app_nil_r in H. Qed.
Lemma int_form rf sg n p v : from_bin_with rf (TInt sg n) p = Ok (v, []) -> len p = n.
Proof. intros H. cbn [from_bin_with] in H. apply bind_Ok in H as ([c s] & S & H). apply sread_split in S as [-> L]. assert (s = []) by congruence. subst s. rewrite app_nil_r. specialize (L ltac:(lia)). lia. Qed.
Lemma bytes_form rf n p v : from_bin_with rf (byte_array n) p = Ok (v, []) -> len p = n.
Proof.
  unfold byte_array. intros H. change (from_bin_with rf (TArr n (TInt false 1)) p) with (let* (l, s) := read_list (from_bin_with rf (TInt false 1)) n p in Ok (VList l, s)) in H.
  apply bind_Ok in H as ([l s] & R & H). assert (s = []) by congruence. subst s. clear H. enough (G : len p = (n + 0)%nat) by lia. change 0%nat with (len (@nil Z)). revert l R. generalize (@nil Z) as rest.
  revert p. induction n as [|n IH]; intros p rest l R; cbn [read_list] in R; [assert (p = rest) by congruence; subst; reflexivity|].
  apply bind_Ok in R as ([x s] & F & R). apply bind_Ok in R as ([l' s'] & R' & R). assert (s' = rest) by congruence. subst s'. apply IH in R'.
  cbn [from_bin_with] in F. apply bind_Ok in F as ([c s2] & S & F). apply sread_split in S as [-> L]. assert (s2 = s) by congruence. subst s2. rewrite app_length. specialize (L ltac:(lia)). lia.
Qed.
Definition prefixb (s : bytes) : bool := forallb (fun c => (32 <=? c) && (c <? 127) && negb (c =? 34) && negb (c =? 92)) s && Nat.eqb (len s) 7.
Lemma prefixb_spec s : prefixb s = true -> simple s /\ len s = 7%nat.
Proof. intros H. apply andb_prop in H as [H L]. apply Nat.eqb_eq in L. split; [|exact L]. apply Forall_forall. intros c Hc. rewrite forallb_forall in H. specialize (H c Hc). lia. Qed.
Definition small_text (k : nat) (j : jv) (p : bytes) : Prop := (1 <= len p /\ len (print j) <= k * len p)%nat.
Lemma scalar_text E b v j p : bytes_ok p -> scalar_ok b v -> scalar_jv E b v = Ok j -> (forall r, from_bin key_env 0 (scalar_ty b) (p ++ r) = Ok (v, r)) -> small_text 110 j p.
Proof.
  intros B W J F. apply whole in F. pose proof F as F0. rewrite from_bin_unfold in F.
  match type of F with from_bin_with ?r _ _ = _ => set (rf := r) in F; clearbody rf end.
  assert (I : forall q sg n, (1 <= n)%nat -> q = false \/ q = true -> forall z, v = VInt z -> wf key_env 0 (TInt sg n) v = true -> from_bin_with rf (TInt sg n) p = Ok (v, []) ->
    j = JNum (int_notation z) \/ j = JStr (int_notation z) -> small_text 110 j p).
  { intros q sg n Hn _ z -> W' F' Hj. cbn [wf wf_with] in W'. apply int_form in F'. pose proof (notation_len sg n z Hn W') as L. unfold small_text. split; [lia|].
    destruct Hj as [->| ->]; cbn [print]; [|rewrite simple_len by apply simple_int]; lia. }
  assert (S : forall sg n t, (4 <= n)%nat -> (len t <= 72)%nat -> j = JStr t -> from_bin_with rf (TInt sg n) p = Ok (v, []) -> small_text 110 j p).
  { intros sg n t Hn Lt -> F'. apply int_form in F'. unfold small_text. cbn [print]. pose proof (string_len t). lia. }
  assert (FL : forall n x, (4 <= n)%nat -> float_jv n x = Ok j -> from_bin_with rf (TFloat n) p = Ok (v, []) -> small_text 110 j p).
  { intros n x Hn Hj F'. apply float_text in Hj. cbn [from_bin_with] in F'. apply bind_Ok in F' as ([c s] & R & F'). apply sread_split in R as [-> L]. assert (s = []) by congruence. subst s. specialize (L ltac:(lia)). rewrite app_nil_r in *. unfold small_text. lia. }
  assert (HX : forall n l, (1 <= n)%nat -> v = VList l -> wf key_env 0 (byte_array n) v = true -> from_bin_with rf (byte_array n) p = Ok (v, []) -> j = JStr (hex (map byte_of l)) -> small_text 110 j p).
  { intros n l Hn -> W' F' ->. apply bytes_form in F'. apply fixed_ok in W' as (L & Bl & _). unfold small_text. cbn [print]. rewrite simple_len by now apply simple_hex. rewrite hex_length, map_length. lia. }
  assert (K : forall t sf pre s, In t [public_key_ty; private_key_ty; signature_ty] -> prefixb pre = true ->
    from_bin key_env 0 t p = Ok (v, []) -> key_to_string t v sf pre = Ok s -> j = JStr s -> (1 <= len p)%nat -> small_text 110 j p).
  { intros t sf pre s Ht Hpre Ft Hs -> Lp. apply prefixb_spec in Hpre as P.
    pose proof (key_to_string_len t v sf pre s p Ht (proj1 P) ltac:(lia) B Ft Hs). unfold small_text. cbn [print]. lia. }
  assert (KN : forall ts, from_bin_with rf (TVariant ts) p = Ok (v, []) -> (1 <= len p)%nat).
  { intros ts F'. cbn [from_bin_with] in F'. apply bind_Ok in F' as ([i s] & V & _). apply vu_nonempty in V as (c & -> & L). rewrite app_length. lia. }
  destruct b; cbn [scalar_jv] in J; cbn [scalar_ty] in F, W, F0; unfold scalar_ok in W; cbn [scalar_ty] in W.
  all: try (match type of F with from_bin_with _ (TInt ?sg ?n) _ = _ => destruct v as [z| | | | | |]; try discriminate J; apply (I false sg n ltac:(lia) (or_introl eq_refl) z eq_refl W F); (left; congruence) || (right; congruence) end).
  all: try (match type of F with from_bin_with _ (TFloat ?n) _ = _ => destruct v as [| |m x| | | |]; try discriminate J; apply (FL n x ltac:(lia) J F) end).
  all: try (match type of F with from_bin_with _ (byte_array ?n) _ = _ => destruct v as [| | | |l| |]; try discriminate J; apply (HX n l ltac:(lia) eq_refl W F); congruence end).
  - (* bool *) destruct v as [|x| | | | |]; try discriminate J. cbn [from_bin_with] in F. destruct p as [|c p]; [discriminate F|]. assert (j = JBool x) by congruence. subst j. unfold small_text. cbn [len print]. destruct x; [change (len (str "true")) with 4%nat|change (len (str "false")) with 5%nat]; lia.
  - (* varuint32 *) destruct v as [z| | | | | |]; try discriminate J. cbn [from_bin_with] in F. apply bind_Ok in F as ([z' s] & V & F). apply vu_nonempty in V as (c & -> & L). unfold small_text. rewrite app_length. assert (j = JNum (int_notation z)) by congruence. subst j. cbn [print].
    pose proof (notation_len false 4 z ltac:(lia)) as N. cbn [wf wf_with] in W. unfold int_ok in N. specialize (N W). lia.
  - (* varint32 *) destruct v as [z| | | | | |]; try discriminate J. cbn [from_bin_with] in F. apply bind_Ok in F as ([z' s] & V & F). assert (NE : (1 <= len p)%nat). { destruct p; [discriminate V|cbn [len]; lia]. }
    unfold small_text. assert (j = JNum (int_notation z)) by congruence. subst j. cbn [print].
    pose proof (notation_len true 4 z ltac:(lia)) as N. cbn [wf wf_with] in W. unfold int_ok in N. specialize (N W). lia.
  - destruct v as [z| | | | | |]; try discriminate J. unfold jstr in J. apply bind_Ok in J as (t & Ht & J). pose proof (time_text_len _ _ _ (or_introl Ht)) as Ht'. clear Ht. eapply (S true 8%nat t); [lia|lia|congruence|exact F].
  - destruct v as [z| | | | | |]; try discriminate J. unfold jstr in J. apply bind_Ok in J as (t & Ht & J). pose proof (time_text_len _ _ _ (or_intror (or_introl Ht))) as Ht'. clear Ht. eapply (S false 4%nat t); [lia|lia|congruence|exact F].
  - destruct v as [z| | | | | |]; try discriminate J. unfold jstr in J. apply bind_Ok in J as (t & Ht & J). pose proof (time_text_len _ _ _ (or_intror (or_intror Ht))) as Ht'. clear Ht. eapply (S false 4%nat t); [lia|lia|congruence|exact F].
  - destruct v as [z| | | | | |]; try discriminate J. pose proof (name_len z). eapply (S false 8%nat (name_to_string z)); [lia|lia|congruence|exact F].
  - (* bytes *) destruct v as [| | |d| | |]; try discriminate J. cbn [from_bin_with] in F. apply bind_Ok in F as ([n s] & V & F). apply bind_Ok in F as (? & _ & F). apply bind_Ok in F as ([d' s'] & R & F).
    assert (d' = d) by congruence. subst d'. apply vu_nonempty in V as (c & -> & L). apply sread_split in R as [-> _]. unfold small_text. assert (j = JStr (hex d)) by congruence. subst j. cbn [print].
    apply bytes_ok_app in B as [_ B]. apply bytes_ok_app in B as [B _]. rewrite simple_len by now apply simple_hex. rewrite hex_length, !app_length. lia.
  - (* string *) destruct v as [| | |d| | |]; try discriminate J. cbn [from_bin_with] in F. apply bind_Ok in F as ([n s] & V & F). apply bind_Ok in F as ([d' s'] & R & F).
    assert (d' = d) by congruence. subst d'. apply vu_nonempty in V as (c & -> & L). apply sread_split in R as [-> _]. unfold small_text. assert (j = JStr d) by congruence. subst j. cbn [print].
    pose proof (string_len d). rewrite !app_length. lia.
  - (* public key *) unfold jstr in J. apply bind_Ok in J as (t & Ht & J). pose proof (KN _ F) as L. unfold public_key_to_string in Ht.
    repeat (destruct (index v =? _); [eapply (K public_key_ty); [left; reflexivity| |exact F0|exact Ht|congruence|exact L]; reflexivity|]). discriminate Ht.
  - unfold jstr in J. apply bind_Ok in J as (t & Ht & J). pose proof (KN _ F) as L. unfold private_key_to_string in Ht.
    repeat (destruct (index v =? _); [eapply (K private_key_ty); [right; left; reflexivity| |exact F0|exact Ht|congruence|exact L]; reflexivity|]). discriminate Ht.
  - unfold jstr in J. apply bind_Ok in J as (t & Ht & J). pose proof (KN _ F) as L. unfold signature_to_string in Ht.
    repeat (destruct (index v =? _); [eapply (K signature_ty); [right; right; left; reflexivity| |exact F0|exact Ht|congruence|exact L]; reflexivity|]). discriminate Ht.
  - destruct v as [z| | | | | |]; try discriminate J. pose proof (symbol_len z). eapply (S false 8%nat (symbol_to_string z)); [lia|lia|congruence|exact F].
  - destruct v as [z| | | | | |]; try discriminate J. pose proof (code_len z). eapply (S false 8%nat (symbol_code_to_string z)); [lia|lia|congruence|exact F].
  - (* asset *) destruct v as [| | | |l| |]; try discriminate J. destruct l as [|[a| | | | | |] l]; try discriminate J. destruct l as [|[sy| | | | | |] l]; try discriminate J. destruct l; try discriminate J.
    unfold jstr in J. apply bind_Ok in J as (t & Ht & J). apply asset_len in Ht. assert (j = JStr t) by congruence. subst j. pose proof (string_len t) as L.
    cbn [from_bin_with map read_tuple] in F. apply bind_Ok in F as ([l s] & F & F2). assert (s = []) by congruence. subst s. clear F2. apply bind_Ok in F as ([x s] & F1 & F). apply bind_Ok in F1 as ([c1 s1] & R1 & F1). assert (s1 = s) by congruence. subst s1.
    apply bind_Ok in F as ([l2 s2] & F & _). apply bind_Ok in F as ([x2 s3] & F2 & _). apply bind_Ok in F2 as ([c2 s4] & R2 & _). apply sread_split in R1 as [-> L1]. apply sread_split in R2 as [-> L2].
    specialize (L1 ltac:(lia)). specialize (L2 ltac:(lia)). unfold small_text. cbn [print]. rewrite !app_length. lia.
Qed.
