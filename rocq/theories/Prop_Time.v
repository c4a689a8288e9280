(** * Properties C14-C16: calendar, time texts, block timestamps.
    Model: Time.v. Specification: TimeSpec.v ([calendar], [time_text], [second_text]). *)
From Verif Require Import Base Decimal Asset Time TimeSpec TimeFacts Calendar TimeText.

(** ** C14 *)
(** [calendar] is the Gregorian calendar: 1970-01-01 is day 0, each day is followed by the
    next one, all dates are valid, and every valid date has exactly one day number. *)
Theorem C14_calendar_is_gregorian :
  calendar 0 = (1970, 1, 1) /\
  (forall n, calendar (n + 1) = next_day (calendar n)) /\
  (forall n, valid_date (calendar n) = true) /\
  (forall x, valid_date x = true -> exists n, calendar n = x) /\
  (forall a b, calendar a = calendar b -> a = b).
Proof.
  split; [reflexivity|]. split; [intros n; rewrite !calendar_civil; apply civil_next|].
  split; [intros n; rewrite calendar_civil; apply civil_valid|].
  split; [|intros a b; rewrite !calendar_civil; apply civil_inj].
  intros [[y m] d] V. exists (day_number y m d). rewrite calendar_civil. now apply civil_day_number.
Qed.
Print Assumptions C14_calendar_is_gregorian.

Theorem C14_day_to_date : forall n, - 2 ^ 31 + 146096 <= n < 2 ^ 31 - 719468 ->
  exists y m d, calendar n = (y, m, d) /\ from_days n = (y mod 2 ^ 32, m, d).
Proof.
  intros n R. rewrite calendar_civil, from_days_civil by auto. destruct (civil n) as [[y m] d]. exists y, m, d. auto.
Qed.
Print Assumptions C14_day_to_date.
Theorem C14_date_to_day : forall y m d n, 0 <= y < 10000 -> calendar n = (y, m, d) -> to_days y m d = n.
Proof.
  intros y m d n Y C. rewrite calendar_civil in C. pose proof (civil_valid n) as V. rewrite C in V. unfold valid_date in V.
  pose proof (month_length_range y m). rewrite to_days_exact by lia.
  pose proof (day_number_civil n) as H1. now rewrite C in H1.
Qed.
Print Assumptions C14_date_to_day.

(** Printing, from the year 0 to the end of the 64-bit range (year modulo 10000). *)
Theorem C14_print : forall m us, - 62167219200000000 <= us < 2 ^ 63 ->
  microseconds_to_str m (us mod 2 ^ 64) = Ok (time_text us).
Proof.
  intros m us R. destruct (to_str us m ltac:(unfold int64_time; lia)) as [[H _]|H].
  - exfalso. revert H. unfold int64_op, us_per_day.
    replace (fits_s 64 (us / 86400000000 * 86400000000)) with true; [discriminate|].
    symmetry. unfold fits_s. change (2 ^ (64 - 1)) with (2 ^ 63).
    assert (- 62167219200000000 <= us / 86400000000 * 86400000000 <= us) by (clear -R; lia). lia.
  - unfold u64 in H. rewrite H. unfold time_text, second_text. cbv zeta.
    destruct (calendar (us / 86400000000)) as [[y mo] d] eqn:EC. rewrite calendar_civil in EC.
    pose proof (civil_valid (us / 86400000000)) as V. pose proof (day_number_civil (us / 86400000000)) as DN. rewrite EC in V, DN.
    pose proof (leap_365 y mo d V) as L. rewrite append_uint_eq; [rewrite <- !app_assoc; reflexivity|].
    assert (- 719528 <= us / 86400000000 <= 106751991) by (clear -R; lia).
    unfold year_start in L. clear -L H0 DN. lia.
Qed.
Print Assumptions C14_print.

(** ** C15 *)
(** Exactly which texts are accepted and what they mean, for seconds and microseconds.
    [day_number y mo d] is the day of a valid date (next theorem); the fields are not
    checked to form a valid date. *)
Theorem C15_parse_seconds : forall s v,
  string_to_utc_seconds Wrap s = Ok (Some v) <->
  exists y mo d h mi sec frac, 0 <= y < 10000 /\ digits2 mo /\ digits2 d /\ digits2 h /\ digits2 mi /\ digits2 sec /\
    s = second_text (y, mo, d) h mi sec ++ match frac with None => [] | Some f => str "." ++ f end /\
    forallb is_digit (match frac with None => [] | Some f => f end) = true /\
    v = (day_number y mo d * 86400 + h * 3600 + mi * 60 + sec) mod 2 ^ 32.
Proof.
  intros s v. unfold string_to_utc_seconds, string_to_utc_seconds_at.
  assert (K : forall f, skip_digits f = [] <-> forallb is_digit f = true).
  { induction f as [|c f IH]; [split; reflexivity|]. cbn [skip_digits forallb]. destruct (is_digit c); [exact IH|]. split; discriminate. }
  split.
  - destruct (parse_fields s) as [[[[[[[y mo] d] h] mi] sec] r]|] eqn:E; [|discriminate].
    apply parse_fields_spec in E. destruct E as (Y & M & D & H & I & C & ->).
    rewrite utc_seconds_wrap by auto. cbn [bind]. intros X.
    destruct (eat_fraction true r) as [|c0 r'] eqn:F; [|discriminate]. cbn [option_map fst] in X.
    assert (V : u32 (day_number y mo d * 86400 + h * 3600 + mi * 60 + sec) = v) by congruence.
    exists y, mo, d, h, mi, sec. unfold eat_fraction in F. destruct r as [|c r].
    + exists None. repeat (split; [assumption || reflexivity|]). now rewrite <- V.
    + destruct (Z.eqb_spec c 46) as [->|]; [|discriminate]. cbn [andb] in F.
      exists (Some r). repeat (split; [assumption || reflexivity|]). split; [now apply K|]. now rewrite <- V.
  - intros (y & mo & d & h & mi & sec & frac & Y & M & D & H & I & C & -> & F & ->).
    rewrite (proj2 (parse_fields_spec _ y mo d h mi sec _)) by (repeat (split; [eassumption|]); reflexivity).
    rewrite utc_seconds_wrap by auto. cbn [bind].
    destruct frac as [f|]; [|reflexivity]. cbn [eat_fraction str app]. change (true && (chr "." =? 46)) with true. cbv iota zeta.
    rewrite (proj2 (K f) F). reflexivity.
Qed.
Print Assumptions C15_parse_seconds.
Theorem C15_day_number : forall y m d, valid_date (y, m, d) = true -> calendar (day_number y m d) = (y, m, d).
Proof. intros y m d V. rewrite calendar_civil. now apply civil_day_number. Qed.
Print Assumptions C15_day_number.

Lemma fraction_us_S f scale c s acc : fraction_us (S f) scale (c :: s) acc =
  if (1 <=? scale) && is_digit c then fraction_us f (scale / 10) s (u64 (acc + u32 ((c - 48) * scale))) else (acc, c :: s).
Proof. reflexivity. Qed.
(** Fraction digits: at most six, as millionths. *)
Lemma fraction_us_spec : forall f scale s acc, forallb is_digit f = true -> (List.length f <= 6)%nat ->
  (s = [] \/ exists c s', s = c :: s' /\ (is_digit c = false \/ List.length f = 6%nat)) ->
  scale = 10 ^ (5 - 0) -> 0 <= acc -> acc + 10 ^ 6 <= 2 ^ 64 ->
  fraction_us 7 scale (f ++ s) acc = (acc + dval f * 10 ^ (6 - Z.of_nat (List.length f)), s).
Proof.
  assert (G : forall k f s acc scale, forallb is_digit f = true -> (List.length f <= k)%nat -> (k <= 6)%nat ->
    (s = [] \/ exists c s', s = c :: s' /\ (is_digit c = false \/ List.length f = k)) ->
    scale = match k with O => 0 | S k' => 10 ^ Z.of_nat k' end -> 0 <= acc -> acc + 10 ^ Z.of_nat k <= 2 ^ 64 ->
    fraction_us (S k) scale (f ++ s) acc = (acc + dval f * 10 ^ (Z.of_nat k - Z.of_nat (List.length f)), s)).
  { induction k as [|k IH]; intros f s acc scale F L K6 T Sc A B.
    - destruct f; [|cbn in L; lia]. cbn [app fraction_us]. change (dval []) with 0. subst scale.
      replace (acc + 0 * 10 ^ (Z.of_nat 0 - Z.of_nat (List.length (@nil Z)))) with acc by lia.
      destruct s as [|c s]; [reflexivity|]. reflexivity.
    - assert (P : 1 <= 10 ^ Z.of_nat k <= 10 ^ 5).
      { split; [pose proof (Z.pow_pos_nonneg 10 (Z.of_nat k)); lia|apply Z.pow_le_mono_r; lia]. }
      rewrite Nat2Z.inj_succ, Z.pow_succ_r in B by lia. destruct f as [|c f].
      + cbn [app]. change (dval []) with 0. rewrite Z.mul_0_l, Z.add_0_r.
        destruct T as [->|(c & s' & -> & [T|T])]; [reflexivity| |discriminate]. cbn [fraction_us]. rewrite T. now rewrite andb_false_r.
      + cbn [forallb] in F. apply andb_true_iff in F. destruct F as [D F]. cbn [app List.length] in *.
        rewrite fraction_us_S, D. subst scale. destruct (Z.leb_spec 1 (10 ^ Z.of_nat k)); [|lia]. cbn [andb].
        apply is_digit_range in D. rewrite u32_small by nia. rewrite u64_small by nia.
        replace (Z.of_nat (S k) - Z.of_nat (S (List.length f))) with (Z.of_nat k - Z.of_nat (List.length f)) by lia.
        rewrite IH.
        * rewrite dval_cons, Z.mul_add_distr_r, <- Z.mul_assoc, <- Z.pow_add_r by lia.
          replace (Z.of_nat (List.length f) + (Z.of_nat k - Z.of_nat (List.length f))) with (Z.of_nat k) by lia. f_equal. lia.
        * exact F.
        * lia.
        * lia.
        * destruct T as [->|(c' & s' & -> & [T|T])]; [now left|right; eauto|right; exists c', s'; split; [reflexivity|right; lia]].
        * destruct k as [|k']; [reflexivity|]. rewrite Nat2Z.inj_succ, Z.pow_succ_r by lia. rewrite Z.mul_comm, Z.div_mul by lia. reflexivity.
        * nia.
        * nia. }
  intros f scale s acc F L T Sc A B. apply (G 6%nat); auto.
Qed.

Theorem C15_parse_microseconds : forall y mo d h mi sec f, 0 <= y < 10000 -> digits2 mo -> digits2 d -> digits2 h -> digits2 mi -> digits2 sec ->
  forallb is_digit f = true ->
  let t := (day_number y mo d * 86400 + h * 3600 + mi * 60 + sec) mod 2 ^ 32 in
  string_to_utc_microseconds Wrap (second_text (y, mo, d) h mi sec) = Ok (Some (t * 1000000)) /\
  string_to_utc_microseconds Wrap (second_text (y, mo, d) h mi sec ++ str "." ++ f) =
    Ok (if Nat.leb (List.length f) 6 then Some (t * 1000000 + dval f * 10 ^ (6 - Z.of_nat (List.length f))) else None).
Proof.
  intros y mo d h mi sec f Y M D H I C F t. unfold string_to_utc_microseconds, string_to_utc_microseconds_at, string_to_utc_seconds_at.
  pose proof (Z.mod_pos_bound (day_number y mo d * 86400 + h * 3600 + mi * 60 + sec) (2 ^ 32) ltac:(lia)) as Tb. fold t in Tb.
  split.
  - rewrite (proj2 (parse_fields_spec _ y mo d h mi sec [])) by (repeat (split; [eassumption|]); now rewrite app_nil_r).
    rewrite utc_seconds_wrap by auto. cbn [bind eat_fraction option_map fst]. unfold u32. fold t. rewrite u64_small by lia. reflexivity.
  - rewrite (proj2 (parse_fields_spec _ y mo d h mi sec (str "." ++ f))) by (repeat (split; [eassumption|]); reflexivity).
    rewrite utc_seconds_wrap by auto. cbn [bind str app eat_fraction]. change (chr "."%char) with 46.
    change (false && (46 =? 46)) with false. cbv iota. cbn [bind]. change (46 =? 46) with true. cbn [negb]. cbv iota. unfold u32. fold t. rewrite u64_small by lia.
    destruct (Nat.leb_spec (List.length f) 6) as [L|L].
    + pose proof (fraction_us_spec f 100000 [] (t * 1000000) F L (or_introl eq_refl) eq_refl ltac:(lia) ltac:(lia)) as X.
      rewrite app_nil_r in X. rewrite X. reflexivity.
    + assert (X : exists a c r, f = a ++ c :: r /\ List.length a = 6%nat).
      { exists (firstn 6 f). pose proof (firstn_skipn 6 f) as FS. pose proof (firstn_length 6 f) as FL. pose proof (skipn_length 6 f) as SL.
        destruct (skipn 6 f) as [|c r]; [cbn [List.length] in SL; lia|]. exists c, r. split; [now symmetry|lia]. }
      destruct X as (a & c & r & -> & La). rewrite forallb_app in F. apply andb_true_iff in F. destruct F as [F1 F2].
      rewrite (fraction_us_spec a 100000 (c :: r) (t * 1000000)); auto; try lia; try reflexivity.
      right. exists c, r. auto.
Qed.
Print Assumptions C15_parse_microseconds.

(** The text of an instant, decomposed into fields the parser reads. *)
Lemma time_text_fields us : 0 <= us < 2 ^ 32 * 1000000 ->
  exists y mo d h mi s ms, 0 <= y < 10000 /\ digits2 mo /\ digits2 d /\ digits2 h /\ digits2 mi /\ digits2 s /\ 0 <= ms < 1000 /\
    time_text us = second_text (y, mo, d) h mi s ++ str "." ++ decn 3 ms /\
    day_number y mo d = us / 86400000000 /\
    day_number y mo d * 86400 + h * 3600 + mi * 60 + s = us / 1000000 /\
    us - us mod 1000 = us / 1000000 * 1000000 + ms * 1000.
Proof.
  intros R. unfold time_text. destruct (calendar (us / 86400000000)) as [[y mo] d] eqn:EC. rewrite calendar_civil in EC.
  pose proof (civil_valid (us / 86400000000)) as V. pose proof (day_number_civil (us / 86400000000)) as DN. rewrite EC in V, DN.
  pose proof (leap_365 y mo d V) as L. unfold year_start in L.
  assert (D : 0 <= us / 86400000000 <= 49710) by (clear -R; lia). assert (Y : 0 <= y < 10000) by (clear -L D DN; lia).
  unfold valid_date in V. pose proof (month_length_range y mo) as ML.
  remember (us / 1000 mod 86400000) as ms eqn:Hms.
  assert (MR : 0 <= ms < 86400000) by (subst ms; apply Z.mod_pos_bound; lia).
  exists y, mo, d, (ms / 3600000), (ms / 60000 mod 60), (ms / 1000 mod 60), (ms mod 1000). unfold digits2.
  split; [exact Y|]. split; [lia|]. split; [lia|]. split; [clear -MR; lia|]. split; [clear -MR; lia|]. split; [clear -MR; lia|].
  split; [clear -MR; lia|]. split; [reflexivity|]. split; [exact DN|]. split.
  - rewrite DN. clear -Hms R. rewrite <- ms_mod in Hms. lia.
  - clear -Hms R. rewrite <- ms_mod in Hms. lia.
Qed.

(** time_point: milliseconds survive (the text has three fraction digits). *)
Theorem C15_time_point : forall us, 0 <= us < 2 ^ 32 * 1000000 ->
  exists t, (forall m, time_point_to_json_string m us = Ok t) /\ t = time_text us /\
    time_point_from_json_string Wrap t = Ok (us - us mod 1000).
Proof.
  intros us R. exists (time_text us). split.
  { intros m. unfold time_point_to_json_string, u64. apply C14_print. lia. }
  split; [reflexivity|]. destruct (time_text_fields us R) as (y & mo & d & h & mi & s & ms & Y & M & D & H & I & S & F & E & _ & T & U).
  unfold time_point_from_json_string. rewrite E.
  rewrite (proj2 (C15_parse_microseconds y mo d h mi s (decn 3 ms) Y M D H I S (decn_digits _ _))).
  rewrite decn_length. change (Nat.leb 3 6) with true. cbn [bind]. f_equal. rewrite T, decn_val by lia.
  change (10 ^ Z.of_nat 3) with 1000. change (10 ^ (6 - Z.of_nat 3)) with 1000.
  rewrite (Z.mod_small ms) by lia. rewrite (Z.mod_small (us / 1000000)) by (clear -R; lia). rewrite <- U.
  unfold to_signed. destruct (Z.ltb_spec (us - us mod 1000) (2 ^ (64 - 1))); [reflexivity|clear -R H0; lia].
Qed.
Print Assumptions C15_time_point.
Theorem C15_time_point_sec : forall s, 0 <= s < 2 ^ 32 ->
  exists t, (forall m, time_point_sec_to_json_string m s = Ok t) /\ t = time_text (s * 1000000) /\
    time_point_sec_from_json_string Wrap t = Ok s.
Proof.
  intros x R. exists (time_text (x * 1000000)). split.
  { intros m. unfold time_point_sec_to_json_string, u64. apply C14_print. lia. }
  split; [reflexivity|]. destruct (time_text_fields (x * 1000000) ltac:(lia)) as (y & mo & d & h & mi & s & ms & Y & M & D & H & I & S & F & E & _ & T & U).
  unfold time_point_sec_from_json_string.
  rewrite (proj2 (C15_parse_seconds (time_text (x * 1000000)) x)); [reflexivity|].
  exists y, mo, d, h, mi, s, (Some (decn 3 ms)). repeat (split; [assumption|]). split; [apply decn_digits|].
  rewrite T, Z.div_mul by lia. rewrite Z.mod_small; lia.
Qed.
Print Assumptions C15_time_point_sec.
Theorem C15_block_timestamp : forall slot, 0 <= slot < 2 ^ 32 ->
  exists t, (forall m, block_timestamp_to_json_string m slot = Ok t) /\
    t = time_text (slot * 500000 + 946684800000000) /\
    block_timestamp_from_json_string Wrap t = Ok slot.
Proof.
  intros x R. destruct (C15_time_point (x * 500000 + 946684800000000) ltac:(lia)) as (t & P & E & B).
  exists t. unfold block_timestamp_to_json_string, block_timestamp_from_json_string, time_point_of_block_timestamp.
  replace ((x * 500 + 946684800000) * 1000) with (x * 500000 + 946684800000000) by lia.
  split; [exact P|]. split; [exact E|]. rewrite B. cbn [bind]. f_equal.
  replace ((x * 500000 + 946684800000000) mod 1000) with 0 by (clear; lia). rewrite Z.sub_0_r.
  unfold block_timestamp_of_time_point.
  rewrite (Z.quot_div_nonneg (x * 500000 + 946684800000000) 1000) by lia. replace ((x * 500000 + 946684800000000) / 1000) with (x * 500 + 946684800000) by (clear; lia).
  replace (x * 500 + 946684800000 - 946684800000) with (x * 500) by lia. rewrite Z.quot_mul by lia. now apply u32_small.
Qed.
Print Assumptions C15_block_timestamp.

(** Parsing in standard C++: the day count times 86400 is an [int] product, so it is
    undefined from 2038-01-20 (day 24856) on, and otherwise the same as with wrap around. *)
Theorem C15_parse_strict : forall y mo d h mi sec f, 0 <= y < 10000 -> digits2 mo -> digits2 d -> digits2 h -> digits2 mi -> digits2 sec ->
  let t := second_text (y, mo, d) h mi sec ++ str "." ++ f in
  (- 24855 <= day_number y mo d <= 24855 -> string_to_utc_microseconds Strict t = string_to_utc_microseconds Wrap t) /\
  (~ (- 24855 <= day_number y mo d <= 24855) -> string_to_utc_microseconds Strict t = Undef "signed overflow").
Proof.
  intros y mo d h mi sec f Y M D H I C t. unfold string_to_utc_microseconds, string_to_utc_microseconds_at, string_to_utc_seconds_at, t.
  rewrite (proj2 (parse_fields_spec _ y mo d h mi sec (str "." ++ f))) by (repeat (split; [eassumption|]); reflexivity).
  rewrite utc_seconds_wrap, utc_seconds_strict by auto. unfold fits_s. change (2 ^ (32 - 1)) with 2147483648. split; intros R.
  - destruct (Z.leb_spec (- (2147483648)) (day_number y mo d * 86400)); [|lia].
    destruct (Z.ltb_spec (day_number y mo d * 86400) 2147483648); [|lia]. reflexivity.
  - destruct (Z.leb_spec (- (2147483648)) (day_number y mo d * 86400)); [|reflexivity].
    destruct (Z.ltb_spec (day_number y mo d * 86400) 2147483648); [lia|reflexivity].
Qed.
Print Assumptions C15_parse_strict.
Theorem C15_time_point_2038_refuted :
  exists us t, 0 <= us < 2 ^ 32 * 1000000 /\ time_point_to_json_string Strict us = Ok t /\
    time_point_from_json_string Strict t = Undef "signed overflow".
Proof.
  exists 2147558400000000, (str "2038-01-20T00:00:00.000"). split; [lia|]. split; vm_compute; reflexivity.
Qed.
Print Assumptions C15_time_point_2038_refuted.
(** Outside 1970..2106 the text does not come back, and dates and times are not checked. *)
Theorem C15_time_point_all_refuted : exists us t us', time_point_to_json_string Wrap us = Ok t /\
  time_point_from_json_string Wrap t = Ok us' /\ us' mod 1000 = us mod 1000 /\ us' <> us.
Proof.
  exists (-1000000), (str "1969-12-31T23:59:59.000"), 4294967295000000.
  split; [vm_compute; reflexivity|]. split; [vm_compute; reflexivity|]. split; [reflexivity|discriminate].
Qed.
Print Assumptions C15_time_point_all_refuted.
Theorem C15_invalid_dates_rejected_refuted :
  valid_date (2021, 2, 31) = false /\
  string_to_utc_seconds Wrap (str "2021-02-31T00:00:00") = string_to_utc_seconds Wrap (str "2021-03-03T00:00:00") /\
  string_to_utc_seconds Wrap (str "2021-02-31T00:00:00") <> Ok None /\
  string_to_utc_seconds Wrap (str "2021-99-99T99:99:99") <> Ok None.
Proof. split; [reflexivity|]. split; [vm_compute; reflexivity|]. split; vm_compute; discriminate. Qed.
Print Assumptions C15_invalid_dates_rejected_refuted.

Example C14_C15_example :
  time_text 0 = str "1970-01-01T00:00:00.000" /\ calendar 11016 = (2000, 2, 29) /\ calendar 11017 = (2000, 3, 1) /\
  microseconds_to_str Strict 951868799999000 = Ok (str "2000-02-29T23:59:59.999") /\
  time_point_from_json_string Strict (str "2000-02-29T23:59:59.999") = Ok 951868799999000 /\
  time_point_sec_from_json_string Wrap (str "2106-02-07T06:28:15.999") = Ok (2 ^ 32 - 1).
Proof. vm_compute. auto 10. Qed.

(** ** C16 *)
Theorem C16_slot_roundtrip : forall slot, 0 <= slot < 2 ^ 32 ->
  block_timestamp_of_time_point (time_point_of_block_timestamp slot) = slot.
Proof.
  intros x R. unfold block_timestamp_of_time_point, time_point_of_block_timestamp.
  rewrite Z.quot_mul by lia. replace (x * 500 + 946684800000 - 946684800000) with (x * 500) by lia. rewrite Z.quot_mul by lia. now apply u32_small.
Qed.
Print Assumptions C16_slot_roundtrip.
(** From 2000-01-01 for 2^32 half seconds: the slot is the half second containing the time. *)
Theorem C16_round_down : forall us, 946684800000000 <= us < 946684800000000 + 2 ^ 32 * 500000 ->
  let slot := block_timestamp_of_time_point us in
  0 <= slot < 2 ^ 32 /\
  time_point_of_block_timestamp slot <= us < time_point_of_block_timestamp slot + 500000.
Proof.
  intros us R. unfold block_timestamp_of_time_point, time_point_of_block_timestamp.
  rewrite (Z.quot_div_nonneg us) by lia.
  assert (0 <= us / 1000 - 946684800000) by (clear -R; lia). rewrite Z.quot_div_nonneg by lia.
  rewrite u32_small by (clear -R; lia). split; clear -R; lia.
Qed.
Print Assumptions C16_round_down.
Theorem C16_from_seconds : forall s, 946684800 <= s < 946684800 + 2 ^ 31 ->
  block_timestamp_of_sec s = block_timestamp_of_time_point (time_point_of_sec s) /\
  time_point_of_block_timestamp (block_timestamp_of_sec s) = time_point_of_sec s.
Proof.
  intros s R. unfold block_timestamp_of_sec, block_timestamp_of_time_point, time_point_of_sec, time_point_of_block_timestamp.
  replace (s * 1000000) with (s * 1000 * 1000) by lia. rewrite Z.quot_mul by lia. split; [reflexivity|].
  rewrite Z.quot_div_nonneg by lia. replace ((s * 1000 - 946684800000) / 500) with (2 * s - 1893369600) by (clear; lia).
  rewrite u32_small by lia. lia.
Qed.
Print Assumptions C16_from_seconds.
Theorem C16_next : forall slot, 0 <= slot < 2 ^ 32 ->
  (slot < 2 ^ 32 - 1 -> block_timestamp_next slot = Ok (slot + 1) /\
     time_point_of_block_timestamp (slot + 1) = time_point_of_block_timestamp slot + 500000) /\
  (slot = 2 ^ 32 - 1 -> exists e, block_timestamp_next slot = Err e).
Proof.
  intros x R. unfold block_timestamp_next, check, time_point_of_block_timestamp. split; intros H.
  - destruct (Z.leb_spec 1 (2 ^ 32 - 1 - x)); [|lia]. cbn [bind]. rewrite u32_small by lia. split; [reflexivity|lia].
  - destruct (Z.leb_spec 1 (2 ^ 32 - 1 - x)); [lia|]. cbn [bind]. eauto.
Qed.
Print Assumptions C16_next.
(** Seconds of time_point_sec survive the conversion to time_point and back. *)
Theorem C16_time_point_sec : forall s, 0 <= s < 2 ^ 32 -> time_point_sec_of_time_point (time_point_of_sec s) = s.
Proof. intros s R. unfold time_point_sec_of_time_point, time_point_of_sec. rewrite Z.quot_mul by lia. now apply u32_small. Qed.
Print Assumptions C16_time_point_sec.
(** Times before 2000 wrap to slots far in the future, and a time slightly before 2000 rounds up. *)
Theorem C16_before_2000_refuted : exists us, 0 <= us < 946684800000000 /\
  us < time_point_of_block_timestamp (block_timestamp_of_time_point us).
Proof. exists 946684799600000. split; [lia|]. vm_compute. reflexivity. Qed.
Print Assumptions C16_before_2000_refuted.
Example C16_example : block_timestamp_of_time_point 946684801700000 = 3 /\ time_point_of_block_timestamp 3 = 946684801500000 /\
  block_timestamp_next 7 = Ok 8 /\ block_timestamp_of_sec 946684802 = 4.
Proof. vm_compute. auto. Qed.
