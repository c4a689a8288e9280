(** * Time texts: printing and parsing. *)
From Verif Require Import Base Decimal Asset Time TimeSpec TimeFacts Calendar.

Lemma append_uint_decn k : forall v acc, append_uint_loop k v acc = decn k v ++ acc.
Proof.
  induction k as [|k IH]; intros v acc; [reflexivity|]. cbn [append_uint_loop]. rewrite IH.
  change (decn (S k) v) with (decn k (v / 10) ++ [48 + v mod 10]). now rewrite <- app_assoc.
Qed.
Lemma append_uint_eq v k : 0 <= v < 2 ^ 32 -> append_uint v k = decn k v.
Proof. intros H. unfold append_uint. rewrite u32_small by auto. now rewrite append_uint_decn, app_nil_r. Qed.
Lemma append_uint_u32 v k : append_uint (u32 v) k = append_uint v k.
Proof. unfold append_uint, u32. now rewrite Z.mod_mod by lia. Qed.

Lemma parse_uint_gen n : forall s acc v r, 0 <= acc -> (acc + 1) * 10 ^ Z.of_nat n <= 2 ^ 32 ->
  (parse_uint n s acc = Some (v, r) <->
   exists ds, s = ds ++ r /\ List.length ds = n /\ forallb is_digit ds = true /\ v = acc * 10 ^ Z.of_nat n + dval ds).
Proof.
  induction n as [|n IH]; intros s acc v r Ha Hb.
  - cbn [parse_uint]. split.
    + intros H. assert (acc = v /\ s = r) as [-> ->] by (split; congruence). exists []. repeat split; auto. cbn [dval fold_left List.length]. change (10 ^ Z.of_nat 0) with 1. change (dval []) with 0. lia.
    + intros (ds & -> & L & _ & ->). apply length_zero_iff_nil in L. subst ds. cbn [app]. change (10 ^ Z.of_nat 0) with 1. change (dval []) with 0. do 2 f_equal. lia.
  - rewrite Nat2Z.inj_succ, Z.pow_succ_r in * by lia.
    assert (P : 1 <= 10 ^ Z.of_nat n) by (pose proof (Z.pow_pos_nonneg 10 (Z.of_nat n)); lia).
    cbn [parse_uint]. split.
    + destruct s as [|c s]; [discriminate|]. destruct (is_digit c) eqn:D; [|discriminate].
      pose proof D as D'. apply is_digit_range in D'. rewrite u32_small by nia.
      intros H. apply IH in H; [|lia|nia]. destruct H as (ds & -> & L & F & ->).
      exists (c :: ds). split; [reflexivity|]. split; [cbn; lia|]. split; [cbn [forallb]; now rewrite D|]. rewrite dval_cons, L. lia.
    + intros (ds & -> & L & F & ->). destruct ds as [|c ds]; [discriminate|]. cbn [app List.length forallb] in *.
      apply andb_true_iff in F. destruct F as [D F]. rewrite D. apply is_digit_range in D. rewrite u32_small by nia.
      apply IH; [lia|nia|]. exists ds. split; [reflexivity|]. split; [lia|]. split; [auto|]. rewrite dval_cons. replace (List.length ds) with n by lia. lia.
Qed.
Lemma decn_of_digits ds : forallb is_digit ds = true -> decn (List.length ds) (dval ds) = ds.
Proof.
  intros F. apply dval_inj; [apply decn_length|apply decn_digits|auto|].
  pose proof (dval_bound ds F). rewrite decn_val by lia. apply Z.mod_small. lia.
Qed.
Lemma parse_uint_spec n s v r : (n <= 9)%nat ->
  (parse_uint n s 0 = Some (v, r) <-> 0 <= v < 10 ^ Z.of_nat n /\ s = decn n v ++ r).
Proof.
  intros N. rewrite parse_uint_gen.
  - split.
    + intros (ds & -> & L & F & ->). rewrite Z.mul_0_l, Z.add_0_l. rewrite <- L. split; [now apply dval_bound|]. now rewrite decn_of_digits.
    + intros (R & ->). exists (decn n v). split; [reflexivity|]. split; [apply decn_length|]. split; [apply decn_digits|].
      rewrite decn_val by lia. rewrite Z.mod_small; lia.
  - lia.
  - assert (10 ^ Z.of_nat n <= 10 ^ 9) by (apply Z.pow_le_mono_r; lia). lia.
Qed.
Lemma eat_spec c s r : eat c s = Some r <-> s = c :: r.
Proof.
  unfold eat. destruct s as [|x s]; [split; discriminate|]. destruct (Z.eqb_spec x c) as [->|N]; split; intros H; try discriminate; injection H; intros; subst; try reflexivity. now contradiction N.
Qed.
Lemma obind_Some {A B} (x : option A) (f : A -> option B) b : obind x f = Some b <-> exists a, x = Some a /\ f a = Some b.
Proof.
  destruct x as [a|]; cbn [obind]; split.
  - intros H. now exists a.
  - intros (a' & E & H). injection E as <-. exact H.
  - discriminate.
  - intros (a' & E & _). discriminate.
Qed.

Definition digits2 (x : Z) : Prop := 0 <= x < 100.
Lemma parse_fields_spec s y mo d h mi sec r :
  parse_fields s = Some (y, mo, d, h, mi, sec, r) <->
  0 <= y < 10000 /\ digits2 mo /\ digits2 d /\ digits2 h /\ digits2 mi /\ digits2 sec /\
  s = second_text (y, mo, d) h mi sec ++ r.
Proof.
  unfold parse_fields, second_text, digits2. change (str "-") with [45]. change (str "T") with [84]. change (str ":") with [58]. split.
  - intros H.
    apply obind_Some in H. destruct H as ([y' s1] & H1 & H). apply obind_Some in H. destruct H as (s2 & H2 & H).
    apply obind_Some in H. destruct H as ([mo' s3] & H3 & H). apply obind_Some in H. destruct H as (s4 & H4 & H).
    apply obind_Some in H. destruct H as ([d' s5] & H5 & H). apply obind_Some in H. destruct H as (s6 & H6 & H).
    apply obind_Some in H. destruct H as ([h' s7] & H7 & H). apply obind_Some in H. destruct H as (s8 & H8 & H).
    apply obind_Some in H. destruct H as ([mi' s9] & H9 & H). apply obind_Some in H. destruct H as (s10 & H10 & H).
    apply obind_Some in H. destruct H as ([sec' s11] & H11 & H).
    assert (E : y' = y /\ mo' = mo /\ d' = d /\ h' = h /\ mi' = mi /\ sec' = sec /\ s11 = r) by (repeat split; congruence).
    destruct E as (-> & -> & -> & -> & -> & -> & ->). clear H.
    apply parse_uint_spec in H1, H3, H5, H7, H9, H11; try lia. apply eat_spec in H2, H4, H6, H8, H10.
    destruct H1 as [R1 ->], H3 as [R3 E3], H5 as [R5 E5], H7 as [R7 E7], H9 as [R9 E9], H11 as [R11 E11].
    change (10 ^ Z.of_nat 4) with 10000 in *. change (10 ^ Z.of_nat 2) with 100 in *.
    repeat (split; [assumption|]). subst. rewrite <- !app_assoc. reflexivity.
  - intros (R1 & R3 & R5 & R7 & R9 & R11 & ->). rewrite <- !app_assoc.
    change 10000 with (10 ^ Z.of_nat 4) in R1. change 100 with (10 ^ Z.of_nat 2) in R3, R5, R7, R9, R11.
    apply obind_Some. eexists (_, _). split; [apply parse_uint_spec; [lia|split; [exact R1|reflexivity]]|]. apply obind_Some. eexists. split; [apply eat_spec; reflexivity|].
    apply obind_Some. eexists (_, _). split; [apply parse_uint_spec; [lia|split; [exact R3|reflexivity]]|]. apply obind_Some. eexists. split; [apply eat_spec; reflexivity|].
    apply obind_Some. eexists (_, _). split; [apply parse_uint_spec; [lia|split; [exact R5|reflexivity]]|]. apply obind_Some. eexists. split; [apply eat_spec; reflexivity|].
    apply obind_Some. eexists (_, _). split; [apply parse_uint_spec; [lia|split; [exact R7|reflexivity]]|]. apply obind_Some. eexists. split; [apply eat_spec; reflexivity|].
    apply obind_Some. eexists (_, _). split; [apply parse_uint_spec; [lia|split; [exact R9|reflexivity]]|]. apply obind_Some. eexists. split; [apply eat_spec; reflexivity|].
    apply obind_Some. eexists (_, _). split; [apply parse_uint_spec; [lia|split; [exact R11|reflexivity]]|]. reflexivity.
Qed.

Lemma utc_seconds_wrap y mo d h mi sec : 0 <= y < 10000 -> digits2 mo -> digits2 d ->
  utc_seconds Wrap y mo d h mi sec = Ok (u32 (day_number y mo d * 86400 + h * 3600 + mi * 60 + sec)).
Proof.
  intros Y M D. unfold utc_seconds, int32_op. rewrite to_days_exact by auto.
  assert (M32 : forall z, wrap_s 32 z mod 2 ^ 32 = z mod 2 ^ 32).
  { intros z. unfold wrap_s. fold (to_unsigned 32 (to_signed 32 (z mod 2 ^ 32))). rewrite to_unsigned_signed; [reflexivity|lia|]. apply Z.mod_pos_bound. lia. }
  destruct (fits_s 32 _); cbn [bind]; [reflexivity|]. f_equal. unfold u32.
  rewrite <- !Z.add_assoc. rewrite <- Z.add_mod_idemp_l by lia. rewrite M32. now rewrite Z.add_mod_idemp_l by lia.
Qed.
Lemma utc_seconds_strict y mo d h mi sec : 0 <= y < 10000 -> digits2 mo -> digits2 d ->
  utc_seconds Strict y mo d h mi sec =
  (if fits_s 32 (day_number y mo d * 86400) then Ok (u32 (day_number y mo d * 86400 + h * 3600 + mi * 60 + sec)) else Undef "signed overflow").
Proof.
  intros Y M D. unfold utc_seconds, int32_op. rewrite to_days_exact by auto.
  destruct (fits_s 32 _); reflexivity.
Qed.

(** ** Printing *)
Lemma ms_range us : 0 <= us / 1000 - us / 86400000000 * 86400000 < 86400000.
Proof. Z.div_mod_to_equations. lia. Qed.
Lemma ms_mod us : us / 1000 - us / 86400000000 * 86400000 = us / 1000 mod 86400000.
Proof.
  apply (Z.mod_unique _ _ (us / 86400000000)); [left; apply ms_range|lia].
Qed.
Definition int64_time (us : Z) : Prop := - 2 ^ 63 <= us < 2 ^ 63.
Lemma to_str us m : int64_time us ->
  (int64_op m (us / us_per_day * us_per_day) = Undef "signed overflow" /\ m = Strict) \/
  microseconds_to_str m (u64 us) =
    let day := us / 86400000000 in
    let ms := us / 1000 mod 86400000 in
    let '(y, mo, d) := calendar day in
    Ok (append_uint y 4 ++ str "-" ++ decn 2 mo ++ str "-" ++ decn 2 d ++ str "T" ++
        decn 2 (ms / 3600000) ++ str ":" ++ decn 2 (ms / 60000 mod 60) ++ str ":" ++
        decn 2 (ms / 1000 mod 60) ++ str "." ++ decn 3 (ms mod 1000)).
Proof.
  intros R. unfold int64_time in R. unfold microseconds_to_str, u64.
  rewrite Z.mod_mod by lia. fold (to_unsigned 64 us). rewrite (to_signed_unsigned 64) by lia.
  unfold us_per_day in *. rewrite !chrono_floor_div by lia.
  assert (RD : - 106751992 <= us / 86400000000 <= 106751991) by (clear -R; Z.div_mod_to_equations; lia).
  rewrite from_days_civil by lia. pose proof (civil_valid (us / 86400000000)) as CV.
  rewrite calendar_civil. destruct (civil (us / 86400000000)) as [[y mo] d] eqn:EC. unfold valid_date in CV.
  pose proof (month_length_range y mo) as ML.
  pose proof (ms_range us) as MR. rewrite ms_mod in *. remember (us / 1000 mod 86400000) as ms eqn:Hms. clear Hms.
  rewrite (u32_small ms) by lia.
  assert (MS : 0 <= ms / 3600000 < 24 /\ 0 <= ms / 60000 mod 60 < 60 /\ 0 <= ms / 1000 mod 60 < 60 /\ 0 <= ms mod 1000 < 1000).
  { split; [clear -MR; Z.div_mod_to_equations; lia|]. split; [apply Z.mod_pos_bound; lia|]. split; apply Z.mod_pos_bound; lia. }
  destruct MS as (M1 & M2 & M3 & M4). rewrite (Z.mod_small (ms / 3600000) 60) by lia.
  destruct (int64_op m (us / 86400000000 * 86400000000)) eqn:EI.
  - right. cbn [bind]. rewrite append_uint_u32. rewrite !(append_uint_eq _ 2), !(append_uint_eq _ 3) by lia. reflexivity.
  - exfalso. revert EI. unfold int64_op. destruct (fits_s 64 _); [discriminate|]. destruct m; discriminate.
  - left. revert EI. unfold int64_op. destruct (fits_s 64 _); [discriminate|]. destruct m; [|discriminate]. intros EI. injection EI as <-. auto.
Qed.

(** Where the years start. *)
Definition year_start (y : Z) : Z := 365 * y + (y + 3) / 4 - (y + 99) / 100 + (y + 399) / 400 - 719528.
Lemma leap_365 y m d : valid_date (y, m, d) = true -> year_start y <= day_number y m d < year_start (y + 1).
Proof.
  unfold valid_date. intros V. pose proof (month_length_range y m) as ML. unfold day_number, era_day, year_start.
  pose proof (Z.div_mod (y - (if m <=? 2 then 1 else 0)) 400 ltac:(lia)) as DM.
  pose proof (Z.mod_pos_bound (y - (if m <=? 2 then 1 else 0)) 400 ltac:(lia)) as B.
  remember ((y - (if m <=? 2 then 1 else 0)) / 400) as q. remember ((y - (if m <=? 2 then 1 else 0)) mod 400) as r.
  assert (ML2 : m = 2 -> month_length y m <= 29) by (intros ->; unfold month_length; cbn [Z.eqb Pos.eqb]; destruct (leap y); lia).
  clear Heqq Heqr. destruct (Z.leb_spec m 2), (Z.ltb_spec 2 m); try lia.
Qed.
