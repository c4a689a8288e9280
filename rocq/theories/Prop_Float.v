(** * C51: the text of a floating point number *)
From Coq Require Import QArith Qabs Qpower Lqa.
From Verif Require Import Base TypedBin TypedSpec Asset KeysFacts Json JsonSpec Abi Fpconv FpconvFacts FpconvSpec FpconvReal FpconvText FpconvPrint AbiScalar AbiScalarFacts AbiReadBack TypedJson TypedJsonSpec TypedJsonFacts TypedJsonRead Prop_AbiBin Prop_TypedJson.
Open Scope Z_scope.

Lemma digit_first i : int_part i -> exists c r, i = c :: r /\ c <> 45.
Proof. intros [->|(c & r & -> & H & _)]; [exists 48, []|exists c, r]; split; try reflexivity; lia. Qed.
Lemma dtoa_api b : finite b ->
  match fpconv_dtoa b with
  | Ok t => t <> [] /\ (List.length t <= 24)%nat /\ number_fits t /\ (b < 2 ^ 63 <-> hd_error t <> Some 45) /\
      exists n K, - 10 ^ 17 < n < 10 ^ 17 /\ stands_for t (inject_Z n * 10 ^ K) /\ nearest doubles (double_value b) (inject_Z n * 10 ^ K)
  | Err _ => False
  | Undef w => w = "buffer overflow"%string /\ (- inject_Z (10 ^ 24) < double_value b)%Q /\ (double_value b < - inject_Z 99999999999999991611392)%Q
  end.
Proof.
  intros F. pose proof (dtoa_spec b F) as D. destruct (fpconv_dtoa b) as [t|e|w]; [|exact D|].
  - destruct D as (n & K & L & Hn & _ & i & f & e & P & X & V & N). assert (Sg : sgn b = 1 \/ sgn b = -1) by (unfold sgn; destruct (b <? 2 ^ 63); auto).
    assert (Q : (inject_Z (sgn b) * (inject_Z n * 10 ^ K) == inject_Z (sgn b * n) * 10 ^ K)%Q) by (rewrite inject_Z_mult; ring).
    destruct (digit_first i (proj1 (proj2 (proj2 P)))) as (c & r & Ei & Hc). 
    assert (Et : t = neg_of b ++ c :: r ++ f ++ e) by (destruct P as [-> _]; rewrite Ei; reflexivity).
    split; [rewrite Et; destruct (neg_of b); discriminate|]. split; [exact L|]. split; [exists (neg_of b), i, f, e; split; assumption|]. split.
    + rewrite Et. unfold neg_of. destruct (Z.ltb_spec b (2 ^ 63)) as [G|G]; cbn [app hd_error]; split; intros; try congruence; lia.
    + exists (sgn b * n), K. split; [destruct Sg as [-> | ->]; lia|]. split; [|apply (nearest_eq doubles (double_value b) _ _ _ ltac:(reflexivity) Q N)].
      exists (neg_of b), i, f, e. split; [exact P|]. rewrite V. now rewrite Q.
  - destruct D as (W & Hb & n & Hn & Hm & Lo & Hi). split; [exact W|]. apply (overflow_range b n); [|exact Hn].
    pose proof (interval_nearest b _ F Hm Lo Hi) as N. assert (S1 : sgn b = -1) by (unfold sgn; destruct (Z.ltb_spec b (2 ^ 63)); [lia|reflexivity]). rewrite S1 in N.
    refine (nearest_eq doubles _ _ _ _ _ _ N); [reflexivity|]. change (inject_Z (-1)) with (- (1))%Q. ring.
Qed.
Lemma finite_not_special n b : n = 4%nat /\ finite32 b \/ n = 8%nat /\ finite b -> 0 <= b < 2 ^ (8 * Z.of_nat n) /\ finite (as_double n b) /\ float_mag n b <> float_inf n /\ is_nan n b = false.
Proof.
  unfold float_mag, is_nan, float_mag. intros [[-> [R F]]|[-> [R F]]].
  - split; [exact R|]. split; [apply widen_spec; split; assumption|]. change (8 * Z.of_nat 4 - 1) with 31. change (float_inf 4) with (255 * 2 ^ 23).
    assert (X : b mod 2 ^ 31 < 255 * 2 ^ 23); [|split; [lia|apply Z.ltb_ge; lia]].
    pose proof (Z.div_mod b (2 ^ 23) ltac:(lia)) as D. pose proof (Z.mod_pos_bound b (2 ^ 23) ltac:(lia)) as B. pose proof (Z.mod_pos_bound (b / 2 ^ 23) (2 ^ 8) ltac:(lia)) as B2.
    pose proof (Z.div_mod (b / 2 ^ 23) (2 ^ 8) ltac:(lia)) as D2. set (k := b / 2 ^ 23) in *. assert (M : b mod 2 ^ 31 = (k mod 2 ^ 8) * 2 ^ 23 + b mod 2 ^ 23) by (symmetry; apply (Z.mod_unique_pos b (2 ^ 31) (k / 2 ^ 8)); lia).
    lia.
  - split; [exact R|]. split; [split; assumption|]. change (8 * Z.of_nat 8 - 1) with 63. change (float_inf 8) with (2047 * 2 ^ 52).
    assert (X : b mod 2 ^ 63 < 2047 * 2 ^ 52); [|split; [lia|apply Z.ltb_ge; lia]].
    pose proof (Z.div_mod b (2 ^ 52) ltac:(lia)) as D. pose proof (Z.mod_pos_bound b (2 ^ 52) ltac:(lia)) as B. pose proof (Z.mod_pos_bound (b / 2 ^ 52) (2 ^ 11) ltac:(lia)) as B2.
    pose proof (Z.div_mod (b / 2 ^ 52) (2 ^ 11) ltac:(lia)) as D2. set (k := b / 2 ^ 52) in *. assert (M : b mod 2 ^ 63 = (k mod 2 ^ 11) * 2 ^ 52 + b mod 2 ^ 52) by (symmetry; apply (Z.mod_unique_pos b (2 ^ 63) (k / 2 ^ 11)); lia).
    lia.
Qed.
Lemma api_dtoa E env fuel n b : n = 4%nat /\ finite32 b \/ n = 8%nat /\ finite b ->
  convert_to_json E env fuel (JScalar (if Nat.eqb n 4 then B_float32 else B_float64)) (VFloat n b) = fpconv_dtoa (as_double n b) /\
  float_jv n b = (let* t := fpconv_dtoa (as_double n b) in Ok (JNum t)).
Proof.
  intros H. destruct (finite_not_special n b H) as (R & F & M & N).
  assert (J : float_jv n b = (let* t := fpconv_dtoa (as_double n b) in Ok (JNum t))).
  { unfold float_jv. destruct (Z.eqb_spec (float_mag n b) (float_inf n)); [contradiction|]. rewrite N. pose proof (dtoa_api _ F) as D.
    destruct (fpconv_dtoa (as_double n b)) as [[|c t]|e|w]; cbn [bind]; try reflexivity. destruct D as [D _]. now contradiction D. }
  split; [|exact J].
  assert (W : jwf env fuel (JScalar (if Nat.eqb n 4 then B_float32 else B_float64)) (VFloat n b) = true).
  { destruct H as [[-> _]|[-> _]]; destruct fuel; cbn [jwf jwf_with Nat.eqb scalar_ty wf wf_with]; unfold fits_u; change (8 * Z.of_nat 4) with 32 in *; change (8 * Z.of_nat 8) with 64 in *; lia. }
  rewrite convert_to_json_spec by exact W.
  assert (T : tdoc E env fuel (JScalar (if Nat.eqb n 4 then B_float32 else B_float64)) (VFloat n b) = float_jv n b) by (destruct H as [[-> _]|[-> _]]; destruct fuel; reflexivity).
  rewrite T, J. destruct (fpconv_dtoa (as_double n b)); reflexivity.
Qed.

(** Every finite double, converted to JSON: either a JSON number of at most 24 characters which the
    reader accepts, of at most 17 significant digits, with a minus sign exactly if the sign
    bit is set, and nearer to the double than to every other double; or, only for numbers
    between -10^24 and -10^23, the text is longer than the buffer it is written to. *)
Theorem C51_double E env fuel b : finite b ->
  match convert_to_json E env fuel (JScalar B_float64) (VFloat 8 b) with
  | Ok t => (List.length t <= 24)%nat /\ number_fits t /\ (b < 2 ^ 63 <-> hd_error t <> Some 45) /\
      exists n K, - 10 ^ 17 < n < 10 ^ 17 /\ stands_for t (inject_Z n * 10 ^ K) /\ nearest doubles (double_value b) (inject_Z n * 10 ^ K)
  | Err _ => False
  | Undef w => w = "buffer overflow"%string /\ (- inject_Z (10 ^ 24) < double_value b)%Q /\ (double_value b < - inject_Z 99999999999999991611392)%Q
  end.
Proof.
  intros F. pose proof (api_dtoa E env fuel 8 b (or_intror (conj eq_refl F))) as [A _]. cbn [Nat.eqb] in A. rewrite A. change (as_double 8 b) with b.
  pose proof (dtoa_api b F) as D. destruct (fpconv_dtoa b); [apply D|exact D|exact D].
Qed.
Print Assumptions C51_double.

(** The same for every finite float: it is printed with the digits of the double of the same value,
    and the text is nearer to it than to every other float (and every other double). *)
Theorem C51_float E env fuel b : finite32 b ->
  match convert_to_json E env fuel (JScalar B_float32) (VFloat 4 b) with
  | Ok t => (List.length t <= 24)%nat /\ number_fits t /\ (b < 2 ^ 31 <-> hd_error t <> Some 45) /\
      exists n K, - 10 ^ 17 < n < 10 ^ 17 /\ stands_for t (inject_Z n * 10 ^ K) /\
        nearest floats (float_value b) (inject_Z n * 10 ^ K) /\ nearest doubles (float_value b) (inject_Z n * 10 ^ K)
  | Err _ => False
  | Undef w => w = "buffer overflow"%string /\ (- inject_Z (10 ^ 24) < float_value b)%Q /\ (float_value b < - inject_Z 99999999999999991611392)%Q
  end.
Proof.
  intros F. pose proof (api_dtoa E env fuel 4 b (or_introl (conj eq_refl F))) as [A _]. cbn [Nat.eqb] in A. rewrite A. change (as_double 4 b) with (widen b).
  destruct (widen_spec b F) as (Fw & V & S). pose proof (dtoa_api (widen b) Fw) as D. destruct (fpconv_dtoa (widen b)); [|exact D|rewrite V in D; exact D].
  destruct D as (_ & L & NF & Sg & n & K & Hn & St & N). split; [exact L|]. split; [exact NF|]. split.
  - rewrite <- Sg. destruct (Z.ltb_spec (widen b) (2 ^ 63)), (Z.ltb_spec b (2 ^ 31)); try discriminate S; lia.
  - exists n, K. split; [exact Hn|]. split; [exact St|]. split; [apply nearest_floats; assumption|]. apply (nearest_eq doubles _ _ _ _ V ltac:(reflexivity) N).
Qed.
Print Assumptions C51_float.

(** The numbers which are not finite are strings. *)
Theorem C51_not_finite E env fuel b : 0 <= b < 2 ^ 64 -> (b / 2 ^ 52) mod 2 ^ 11 = 2047 ->
  convert_to_json E env fuel (JScalar B_float64) (VFloat 8 b) =
  Ok (if b mod 2 ^ 52 =? 0 then (if b <? 2 ^ 63 then str """Infinity""" else str """-Infinity""") else str """NaN""").
Proof.
  intros R H.
  assert (W : jwf env fuel (JScalar B_float64) (VFloat 8 b) = true).
  { destruct fuel; cbn [jwf jwf_with scalar_ty wf wf_with Nat.eqb]; unfold fits_u; change (8 * Z.of_nat 8) with 64; lia. }
  rewrite convert_to_json_spec by exact W. assert (T : tdoc E env fuel (JScalar B_float64) (VFloat 8 b) = float_jv 8 b) by (destruct fuel; reflexivity).
  rewrite T. unfold float_jv, is_nan, float_mag, float_sign. change (8 * Z.of_nat 8 - 1) with 63. change (float_inf 8) with (2047 * 2 ^ 52).
  pose proof (Z.div_mod b (2 ^ 52) ltac:(lia)) as D. pose proof (Z.mod_pos_bound b (2 ^ 52) ltac:(lia)) as B. pose proof (Z.mod_pos_bound (b / 2 ^ 52) (2 ^ 11) ltac:(lia)) as B2.
  pose proof (Z.div_mod (b / 2 ^ 52) (2 ^ 11) ltac:(lia)) as D2. set (k := b / 2 ^ 52) in *. assert (M : b mod 2 ^ 63 = (k mod 2 ^ 11) * 2 ^ 52 + b mod 2 ^ 52) by (symmetry; apply (Z.mod_unique_pos b (2 ^ 63) (k / 2 ^ 11)); lia).
  rewrite M, H. destruct (Z.eqb_spec (b mod 2 ^ 52) 0) as [Z0|Z0].
  - rewrite Z0, Z.add_0_r, Z.eqb_refl. destruct (Z.leb_spec (2 ^ 63) b), (Z.ltb_spec b (2 ^ 63)); try lia; reflexivity.
  - destruct (Z.eqb_spec (2047 * 2 ^ 52 + b mod 2 ^ 52) (2047 * 2 ^ 52)); [lia|]. destruct (Z.ltb_spec (2047 * 2 ^ 52) (2047 * 2 ^ 52 + b mod 2 ^ 52)); [reflexivity|lia].
Qed.
Print Assumptions C51_not_finite.

(** fpconv_dtoa itself writes names for these, with the sign bit as a minus sign also before nan. *)
Theorem C51_dtoa_special b : 0 <= b < 2 ^ 64 ->
  let e := (b / 2 ^ 52) mod 2 ^ 11 in let f := b mod 2 ^ 52 in
  let sign := if b <? 2 ^ 63 then [] else str "-" in
  (e = 0 -> f = 0 -> fpconv_dtoa b = Ok (sign ++ str "0")) /\
  (e = 2047 -> f = 0 -> fpconv_dtoa b = Ok (sign ++ str "inf")) /\
  (e = 2047 -> f <> 0 -> fpconv_dtoa b = Ok (sign ++ str "nan")).
Proof.
  intros R e f sign. pose proof (Z.div_mod b (2 ^ 52) ltac:(lia)) as D. pose proof (Z.div_mod (b / 2 ^ 52) (2 ^ 11) ltac:(lia)) as D2.
  fold e f in D, D2. pose proof (Z.mod_pos_bound b (2 ^ 52) ltac:(lia)) as B. pose proof (Z.mod_pos_bound (b / 2 ^ 52) (2 ^ 11) ltac:(lia)) as B2. fold e f in B, B2.
  assert (M : b mod 2 ^ 63 = e * 2 ^ 52 + f) by (symmetry; apply (Z.mod_unique_pos b (2 ^ 63) (b / 2 ^ 52 / 2 ^ 11)); lia).
  assert (Sg : (if negb (b / 2 ^ 63 =? 0) then [45] else []) = sign).
  { unfold sign. destruct (Z.ltb_spec b (2 ^ 63)); [rewrite Z.div_small by lia; reflexivity|]. destruct (Z.eqb_spec (b / 2 ^ 63) 0); [|reflexivity]. pose proof (Z.div_le_lower_bound b (2 ^ 63) 1 ltac:(lia) ltac:(lia)). lia. }
  unfold fpconv_dtoa, filter_special. rewrite Sg, M. fold e f. split; [|split].
  - intros -> ->. reflexivity.
  - intros -> ->. reflexivity.
  - intros -> N. destruct (Z.eqb_spec (2047 * 2 ^ 52 + f) 0); [lia|]. rewrite Z.eqb_refl. destruct (Z.eqb_spec f 0); [contradiction|]. reflexivity.
Qed.
Print Assumptions C51_dtoa_special.

(** With a correctly rounding strtod every double which is not subnormal is read back as it was, bit
    by bit, from the text it is converted to; the same for floats. These are then values which the
    round trip theorems for documents (C29, C41) admit. *)
Theorem C51_reads_back E b :
  (strtod_rounds (fl_parse E 8) -> finite b -> normal b -> (exists t, fp_to_json 8 b = Ok t) -> float_reads_back E 8 b) /\
  (strtof_rounds (fl_parse E 4) -> finite32 b -> normal32 b -> (exists t, fp_to_json 4 b = Ok t) -> float_reads_back E 4 b).
Proof.
  split; intros R F N [t0 Ht].
  - destruct (api_dtoa E (fun _ => JView) 0 8 b (or_intror (conj eq_refl F))) as [_ J]. change (as_double 8 b) with b in J. pose proof (dtoa_api b F) as D.
    assert (P : exists t, fpconv_dtoa b = Ok t).
    { destruct (finite_not_special 8 b (or_intror (conj eq_refl F))) as (_ & _ & M & Nn). unfold fp_to_json in Ht. destruct (Z.eqb_spec (float_mag 8 b) (float_inf 8)); [contradiction|]. rewrite Nn in Ht. apply bind_Ok in Ht as (t & P & _). exists t. exact P. }
    destruct P as [t P]. rewrite P in J, D. cbn [bind] in J. destruct D as (Ne & L & NF & Sg & n & K & Hn & St & Nr). exists (JNum t), t. split; [exact J|]. split; [reflexivity|]. split; [exact Ne|].
    eapply R; eauto.
  - destruct (api_dtoa E (fun _ => JView) 0 4 b (or_introl (conj eq_refl F))) as [_ J]. change (as_double 4 b) with (widen b) in J. destruct (widen_spec b F) as (Fw & V & S). pose proof (dtoa_api (widen b) Fw) as D.
    assert (P : exists t, fpconv_dtoa (widen b) = Ok t).
    { destruct (finite_not_special 4 b (or_introl (conj eq_refl F))) as (_ & _ & M & Nn). unfold fp_to_json in Ht. destruct (Z.eqb_spec (float_mag 4 b) (float_inf 4)); [contradiction|]. rewrite Nn in Ht. apply bind_Ok in Ht as (t & P & _). exists t. exact P. }
    destruct P as [t P]. rewrite P in J, D. cbn [bind] in J. destruct D as (Ne & L & NF & Sg & n & K & Hn & St & Nr). exists (JNum t), t. split; [exact J|]. split; [reflexivity|]. split; [exact Ne|].
    eapply R; [exact St|exact F|exact N| |apply nearest_floats; eassumption]. rewrite <- Sg. destruct (Z.ltb_spec (widen b) (2 ^ 63)), (Z.ltb_spec b (2 ^ 31)); try discriminate S; lia.
Qed.
Print Assumptions C51_reads_back.
Theorem C51_roundtrip E env fuel b t :
  strtod_rounds (fl_parse E 8) -> ov E = Wrap -> finite b -> normal b ->
  convert_to_json E env fuel (JScalar B_float64) (VFloat 8 b) = Ok t ->
  from_json E (JScalar B_float64) (jdefault (JScalar B_float64)) (open_json t) = Ok (VFloat 8 b, JS [] None).
Proof.
  intros R W F N H. destruct (api_dtoa E env fuel 8 b (or_intror (conj eq_refl F))) as [A J]. cbn [Nat.eqb] in A. rewrite A in H. change (as_double 8 b) with b in H, J.
  destruct (finite_not_special 8 b (or_intror (conj eq_refl F))) as (Rg & _ & M & Nn).
  pose proof (dtoa_api b F) as D. rewrite H in D. destruct D as (Ne & L & _).
  assert (Pr : exists t, fp_to_json 8 b = Ok t). { unfold fp_to_json. destruct (Z.eqb_spec (float_mag 8 b) (float_inf 8)); [contradiction|]. rewrite Nn. change (as_double 8 b) with b. rewrite H. cbn [bind]. destruct t; [contradiction|]. eexists. reflexivity. }
  destruct (C41_roundtrip E env fuel (JScalar B_float64) (VFloat 8 b)) as (t' & C & B & G).
  - destruct fuel; cbn [jwf jwf_with scalar_ty wf wf_with Nat.eqb]; unfold fits_u; change (8 * Z.of_nat 8) with 64 in *; lia.
  - reflexivity.
  - exact Logic.I.
  - cbn [survives plain_value]. apply C51_reads_back; assumption.
  - exact W.
  - cbn [Nat.eqb] in A. rewrite A in C. change (as_double 8 b) with b in C. assert (t' = t) by congruence. subst t'. apply G. unfold short. lia.
Qed.
Print Assumptions C51_roundtrip.

(** -1.2345678901234567e23 is converted to a text of 25 characters in a buffer of 24; so is a float. *)
Theorem C51_buffer_refuted E env fuel :
  (exists b, finite b /\ convert_to_json E env fuel (JScalar B_float64) (VFloat 8 b) = Undef "buffer overflow") /\
  (exists b, finite32 b /\ convert_to_json E env fuel (JScalar B_float32) (VFloat 4 b) = Undef "buffer overflow") /\
  (exists b digits K, finite b /\ 2 ^ 63 <= b /\ grisu2 b = Ok (digits, K) /\ List.length ([45] ++ emit_text digits K true) = 25%nat).
Proof.
  assert (F1 : finite (2 ^ 63 + 4952310988906995820)) by (split; vm_compute; intuition discriminate). assert (F2 : finite32 3860559313) by (split; vm_compute; intuition discriminate).
  split; [|split].
  - exists (2 ^ 63 + 4952310988906995820). split; [exact F1|]. destruct (api_dtoa E env fuel 8 _ (or_intror (conj eq_refl F1))) as [A _]. cbn [Nat.eqb] in A. rewrite A. vm_compute. reflexivity.
  - exists 3860559313. split; [exact F2|]. destruct (api_dtoa E env fuel 4 _ (or_introl (conj eq_refl F2))) as [A _]. cbn [Nat.eqb] in A. rewrite A. vm_compute. reflexivity.
  - exists (2 ^ 63 + 4952310988906995820), (str "12345678901234567"), 7. split; [exact F1|]. split; [lia|]. split; vm_compute; reflexivity.
Qed.
Print Assumptions C51_buffer_refuted.

(** 0.1, pi, the largest and the smallest double; minus zero; 0.1f; 5e-324 is not normal *)
Example C51_examples E env fuel :
  map (fun b => convert_to_json E env fuel (JScalar B_float64) (VFloat 8 b)) [4591870180066957722; 4614256656552045848; 9218868437227405311; 1; 2 ^ 63; 13830554455654793216] =
    map (fun s => Ok (str s)) ["0.1"; "3.141592653589793"; "1.7976931348623157e+308"; "5e-324"; "-0"; "-1"]%string /\
  convert_to_json E env fuel (JScalar B_float32) (VFloat 4 1036831949) = Ok (str "0.10000000149011612") /\
  finite 4591870180066957722 /\ normal 4591870180066957722 /\ finite 1 /\ ~ normal 1.
Proof.
  assert (P : forall b t, finite b -> fpconv_dtoa b = Ok t -> convert_to_json E env fuel (JScalar B_float64) (VFloat 8 b) = Ok t).
  { intros b t F H. destruct (api_dtoa E env fuel 8 b (or_intror (conj eq_refl F))) as [A _]. cbn [Nat.eqb] in A. rewrite A. exact H. }
  split.
  - assert (C : forall (x y : res bytes) l m, x = y -> l = m -> x :: l = y :: m) by (intros; congruence).
    cbn [map]. repeat (apply C; [apply P; [split; vm_compute; intuition discriminate|vm_compute; reflexivity]|]). reflexivity.
  - split.
    + assert (F2 : finite32 1036831949) by (split; vm_compute; intuition discriminate). destruct (api_dtoa E env fuel 4 _ (or_introl (conj eq_refl F2))) as [A _]. cbn [Nat.eqb] in A. rewrite A. vm_compute. reflexivity.
    + split; [split; vm_compute; intuition discriminate|]. split; [left; vm_compute; discriminate|]. split; [split; vm_compute; intuition discriminate|]. unfold normal. intros [H|H]; [apply H; vm_compute; reflexivity|vm_compute in H; discriminate H].
Qed.
