(** * The day <-> date algorithms compute the Gregorian calendar. *)
From Verif Require Import Base Decimal Asset Time TimeSpec TimeFacts.

Lemma leap_shift k y : leap (y + 400 * k) = leap y.
Proof.
  unfold leap.
  replace ((y + 400 * k) mod 4) with (y mod 4) by (rewrite <- (Z.mod_add y (100 * k) 4) by lia; f_equal; lia).
  replace ((y + 400 * k) mod 100) with (y mod 100) by (rewrite <- (Z.mod_add y (4 * k) 100) by lia; f_equal; lia).
  replace ((y + 400 * k) mod 400) with (y mod 400) by (rewrite <- (Z.mod_add y k 400) by lia; f_equal; lia).
  reflexivity.
Qed.
Lemma month_length_shift k y m : month_length (y + 400 * k) m = month_length y m.
Proof. unfold month_length. now rewrite leap_shift. Qed.
Lemma next_day_shift k x : next_day (shift k x) = shift k (next_day x).
Proof.
  destruct x as [[y m] d]. unfold next_day, shift. rewrite month_length_shift.
  destruct (d <? month_length y m); auto. destruct (m <? 12); auto. do 2 f_equal. lia.
Qed.
Lemma valid_shift k x : valid_date (shift k x) = valid_date x.
Proof. destruct x as [[y m] d]. unfold valid_date, shift. now rewrite month_length_shift. Qed.
Lemma shift_shift a b x : shift a (shift b x) = shift (a + b) x.
Proof. destruct x as [[y m] d]. unfold shift. do 2 f_equal. lia. Qed.
Lemma shift_0 x : shift 0 x = x.
Proof. destruct x as [[y m] d]. unfold shift. do 2 f_equal. lia. Qed.

Lemma month_length_range y m : 28 <= month_length y m <= 31.
Proof. unfold month_length. destruct (m =? 2), (leap y); try lia; destruct ((m =? 4) || (m =? 6) || (m =? 9) || (m =? 11)); lia. Qed.
Lemma month_12 y : month_length y 12 = 31. Proof. reflexivity. Qed.
Lemma prev_next x : valid_date x = true -> prev_day (next_day x) = x.
Proof.
  destruct x as [[y m] d]. unfold valid_date, next_day. intros V.
  destruct (Z.ltb_spec d (month_length y m)).
  - unfold prev_day. destruct (Z.ltb_spec 1 (d + 1)); [|lia]. do 2 f_equal; lia.
  - destruct (Z.ltb_spec m 12).
    + unfold prev_day. destruct (Z.ltb_spec 1 1); [lia|]. destruct (Z.ltb_spec 1 (m + 1)); [|lia].
      replace (m + 1 - 1) with m by lia. do 2 f_equal; lia.
    + assert (m = 12) by lia. subst m. rewrite !andb_true_iff, month_12 in V. rewrite month_12 in *.
      assert (d = 31) by lia. subst d. unfold prev_day. change (1 <? 1) with false. cbv iota. do 2 f_equal; lia.
Qed.
Lemma next_valid x : valid_date x = true -> valid_date (next_day x) = true.
Proof.
  destruct x as [[y m] d]. unfold valid_date, next_day. intros V.
  destruct (Z.ltb_spec d (month_length y m)); [|destruct (Z.ltb_spec m 12)].
  - lia.
  - pose proof (month_length_range y (m + 1)). lia.
  - pose proof (month_length_range (y + 1) 1). lia.
Qed.

Lemma era_inv doe : 0 <= doe < 146097 -> let '(y, m, d) := era_date doe in
  valid_date (y, m, d) = true /\ 0 <= y - (if m <=? 2 then 1 else 0) < 400 /\
  era_day (y - (if m <=? 2 then 1 else 0)) m d = doe /\
  next_day (y, m, d) = (if doe =? 146096 then shift 1 (era_date 0) else era_date (doe + 1)).
Proof.
  intros H. unfold era_date at 1. cbv zeta.
  pose proof (era_year_range doe H) as YR. pose proof (era_year_days doe H) as YD.
  remember (era_year doe) as yoe. remember (doe - years_before yoe) as doy.
  assert (DR : 0 <= doy < year_days yoe) by lia.
  assert (DR' : 0 <= doy < 366) by (unfold year_days in DR; destruct (leap (yoe + 1)); lia).
  destruct (era_month_range doy DR') as [MR D1]. remember (era_month doy) as mp.
  destruct (mp_month mp MR) as (M1 & M2 & M3). pose proof (fun y => mp_month_length y mp MR) as ML. cbv zeta in M1, M2, M3, ML.
  remember (if mp <? 10 then mp + 3 else mp - 9) as m. remember (doy - months_before mp + 1) as d. rewrite M3 in *.
  remember (yoe + (if 10 <=? mp then 1 else 0)) as y.
  assert (Ey : y - (if 10 <=? mp then 1 else 0) = yoe) by lia. rewrite Ey.
  (* the day is within its month *)
  assert (DV : d <= month_length y m).
  { rewrite ML. destruct (Z.eqb_spec mp 11) as [E|N]; [|lia]. subst mp y. rewrite E in *. cbn [Z.leb Z.compare Pos.compare Pos.compare_cont] in *.
    unfold year_days in DR. change (months_before 11) with 337 in *. change (mp_length 11) with 29 in D1. destruct (leap (yoe + 1)); lia. }
  split; [unfold valid_date; lia|]. split; [lia|]. split.
  { unfold era_day. rewrite M2. fold (months_before mp). unfold years_before in *. lia. }
  unfold next_day.
  assert (K : forall mp' m' d' yoe' doe', 0 <= yoe' < 400 -> 0 <= mp' < 12 -> doe' = years_before yoe' + months_before mp' + d' - 1 ->
     1 <= d' <= mp_length mp' -> 0 <= months_before mp' + d' - 1 < year_days yoe' -> m' = (if mp' <? 10 then mp' + 3 else mp' - 9) ->
     era_date doe' = (yoe' + (if m' <=? 2 then 1 else 0), m', d')).
  { intros mp' m' d' yoe' doe' Y' M' E' D' DD' Em'. unfold era_date. cbv zeta.
    rewrite (era_year_unique doe' yoe') by lia. replace (doe' - years_before yoe') with (months_before mp' + d' - 1) by lia.
    rewrite (era_month_unique _ mp') by lia. rewrite <- Em'. f_equal. lia. }
  assert (ML2 : month_length y m <= mp_length mp).
  { rewrite ML. destruct (Z.eqb_spec mp 11) as [E|N]; [|lia]. rewrite E. change (mp_length 11) with 29. destruct (leap y); lia. }
  assert (Hm : m = if mp <? 10 then mp + 3 else mp - 9) by exact Heqm.
  assert (Lst : mp = 11 -> d < month_length y m -> doy + 1 < year_days yoe).
  { intros E. rewrite ML, E, Z.eqb_refl. subst y. rewrite E. cbn [Z.leb Z.compare Pos.compare Pos.compare_cont].
    unfold year_days. rewrite E in Heqd. change (months_before 11) with 337 in Heqd. destruct (leap (yoe + 1)); lia. }
  assert (Lst2 : mp <> 11 -> doy + 1 < year_days yoe).
  { intros N. assert (months_before mp + mp_length mp <= 337).
    { clear -MR N. assert (X : mp = 0 \/ mp = 1 \/ mp = 2 \/ mp = 3 \/ mp = 4 \/ mp = 5 \/ mp = 6 \/ mp = 7 \/ mp = 8 \/ mp = 9 \/ mp = 10) by lia.
      destruct X as [->|[->|[->|[->|[->|[->|[->|[->|[->|[->| ->]]]]]]]]]]; vm_compute; discriminate. }
    unfold year_days. destruct (leap (yoe + 1)); lia. }
  destruct (Z.ltb_spec d (month_length y m)) as [Dl|Dl].
  - (* same month *)
    assert (N : doe <> 146096).
    { intros E. assert (yoe = 399) by (rewrite Heqyoe, E; reflexivity). subst yoe.
      rewrite H0 in *. change (years_before 399) with 145731 in *. change (year_days 399) with 366 in *.
      destruct (Z.eq_dec mp 11); [specialize (Lst e Dl)|specialize (Lst2 n)]; lia. }
    destruct (Z.eqb_spec doe 146096); [contradiction|].
    symmetry. rewrite Heqy, <- M3. apply (K mp m (d + 1) yoe (doe + 1)); auto; try lia.
  - (* the month ends *)
    assert (Ed : d = month_length y m) by lia.
    destruct (Z.eq_dec mp 11) as [E|E].
    + (* end of February *)
      assert (Em : m = 2) by (rewrite Hm, E; reflexivity).
      assert (EL : doy + 1 = year_days yoe).
      { rewrite Ed, ML, E, Z.eqb_refl in Heqd. rewrite Heqy, E in Heqd. cbn [Z.leb Z.compare Pos.compare Pos.compare_cont] in Heqd.
        change (months_before 11) with 337 in Heqd. unfold year_days. destruct (leap (yoe + 1)); lia. }
      assert (Ey2 : y = yoe + 1) by (rewrite Heqy, E; reflexivity).
      rewrite Em. change (2 <? 12) with true. cbv iota.
      destruct (Z.eqb_spec doe 146096) as [E6|N6].
      * assert (yoe = 399) by (rewrite Heqyoe, E6; reflexivity). rewrite Ey2, H0. reflexivity.
      * assert (yoe < 399). { destruct (Z.eq_dec yoe 399) as [E9|]; [|lia]. rewrite E9 in *. change (years_before 399) with 145731 in *. change (year_days 399) with 366 in *. lia. }
        assert (EK : era_date (doe + 1) = (yoe + 1 + (if 3 <=? 2 then 1 else 0), 3, 1)).
        { apply (K 0 3 1 (yoe + 1) (doe + 1)); try lia; try reflexivity.
          - rewrite years_before_next by lia. change (months_before 0) with 0. lia.
          - change (mp_length 0) with 31. lia.
          - change (months_before 0) with 0. unfold year_days. destruct (leap _); lia. }
        rewrite EK, Ey2. change (3 <=? 2) with false. cbv iota. now rewrite Z.add_0_r.
    + specialize (Lst2 E).
      assert (N : doe <> 146096).
      { intros E6. assert (yoe = 399) by (rewrite Heqyoe, E6; reflexivity). rewrite H0 in *. change (years_before 399) with 145731 in *. change (year_days 399) with 366 in *. lia. }
      destruct (Z.eqb_spec doe 146096); [contradiction|].
      rewrite ML in Ed. destruct (Z.eqb_spec mp 11); [contradiction|].
      pose proof (months_before_next mp ltac:(lia)) as MN.
      assert (G : 0 <= mp + 1 < 12) by lia. destruct (mp_month (mp + 1) G) as (G1 & G2 & G3). cbv zeta in G1, G2, G3.
      assert (EK : era_date (doe + 1) = (yoe + (if (if mp + 1 <? 10 then mp + 1 + 3 else mp + 1 - 9) <=? 2 then 1 else 0), (if mp + 1 <? 10 then mp + 1 + 3 else mp + 1 - 9), 1)).
      { apply (K (mp + 1)); auto; try lia. unfold mp_length. destruct (_ || _); [lia|]. destruct (_ =? _); lia. }
      rewrite EK, G3. destruct (Z.ltb_spec m 12).
      * assert (Hm1 : (if mp + 1 <? 10 then mp + 1 + 3 else mp + 1 - 9) = m + 1 /\ (10 <=? mp + 1) = (10 <=? mp)) by (rewrite Hm in *; destruct (mp <? 10) eqn:?, (mp + 1 <? 10) eqn:?; lia).
        destruct Hm1 as [-> ->]. rewrite Heqy. reflexivity.
      * assert (mp = 9) by (rewrite Hm in *; destruct (mp <? 10) eqn:?; lia). rewrite H1 in *. rewrite Heqy. f_equal.
        change (10 <=? 9) with false. change (10 <=? 9 + 1) with true. cbv iota. f_equal. lia.
Qed.
Lemma era_day_0_only_in_civil n : n + 719468 = 146097 * ((n + 719468) / 146097) + (n + 719468) mod 146097.
Proof. apply Z.div_mod. lia. Qed.

Lemma civil_next n : civil (n + 1) = next_day (civil n).
Proof.
  unfold civil. pose proof (Z.div_mod (n + 719468) 146097 ltac:(lia)) as DM.
  pose proof (Z.mod_pos_bound (n + 719468) 146097 ltac:(lia)) as B.
  remember ((n + 719468) / 146097) as q. remember ((n + 719468) mod 146097) as r.
  replace (n + 1 + 719468) with (n + 719468 + 1) by lia. rewrite next_day_shift.
  pose proof (era_inv r B) as I. destruct (era_date r) as [[y m] d] eqn:E. destruct I as (_ & _ & _ & N). rewrite N.
  destruct (Z.eqb_spec r 146096).
  - rewrite shift_shift.
    replace ((n + 719468 + 1) / 146097) with (q + 1) by (apply (Z.div_unique _ _ _ 0); lia).
    replace ((n + 719468 + 1) mod 146097) with 0 by (apply (Z.mod_unique _ _ (q + 1)); lia). reflexivity.
  - replace ((n + 719468 + 1) / 146097) with q by (apply (Z.div_unique _ _ _ (r + 1)); lia).
    replace ((n + 719468 + 1) mod 146097) with (r + 1) by (apply (Z.mod_unique _ _ q); lia). reflexivity.
Qed.
Lemma civil_valid n : valid_date (civil n) = true.
Proof.
  unfold civil. rewrite valid_shift. pose proof (Z.mod_pos_bound (n + 719468) 146097 ltac:(lia)) as B.
  pose proof (era_inv _ B) as I. destruct (era_date ((n + 719468) mod 146097)) as [[y m] d]. apply I.
Qed.
Lemma civil_prev n : prev_day (civil n) = civil (n - 1).
Proof. replace n with (n - 1 + 1) at 1 by lia. rewrite civil_next. apply prev_next, civil_valid. Qed.

Theorem calendar_civil n : calendar n = civil n.
Proof.
  unfold calendar. destruct (Z.leb_spec 0 n).
  - rewrite <- (Z2Nat.id n) at 2 by lia. generalize (Z.to_nat n). clear. induction n as [|n IH]; [reflexivity|].
    cbn [Nat.iter nat_rect]. unfold Nat.iter in IH. rewrite IH, Nat2Z.inj_succ. symmetry. apply civil_next.
  - replace n with (- Z.of_nat (Z.to_nat (- n))) at 2 by lia. generalize (Z.to_nat (- n)). clear. induction n as [|n IH]; [reflexivity|].
    cbn [Nat.iter nat_rect]. unfold Nat.iter in IH. rewrite IH, Nat2Z.inj_succ. rewrite civil_prev. f_equal. lia.
Qed.

(** ** The functions of the code *)
Lemma quot_era z : Z.quot (if 0 <=? z then z else z - 146096) 146097 = z / 146097.
Proof. exact (quot_floor z 146097 ltac:(lia)). Qed.
Lemma quot_400 z : Z.quot (if 0 <=? z then z else z - 399) 400 = z / 400.
Proof. exact (quot_floor z 400 ltac:(lia)). Qed.

Theorem from_days_civil ds : - 2 ^ 31 + 146096 <= ds < 2 ^ 31 - 719468 ->
  from_days ds = let '(y, m, d) := civil ds in (u32 y, m, d).
Proof.
  intros R. unfold from_days, civil. cbv zeta.
  rewrite quot_era.
  pose proof (Z.div_mod (ds + 719468) 146097 ltac:(lia)) as DM.
  pose proof (Z.mod_pos_bound (ds + 719468) 146097 ltac:(lia)) as B.
  remember ((ds + 719468) / 146097) as q. remember ((ds + 719468) mod 146097) as r.
  replace (ds + 719468 - q * 146097) with r by lia. rewrite (u32_small r) by lia.
  pose proof (era_inv r B) as I. unfold era_date, era_year, years_before, era_month, months_before in *. cbv zeta in *.
  assert (P : 0 <= r - r / 1460 + r / 36524 - r / 146096 < 2 ^ 32).
  { clear -B. Z.div_mod_to_equations. lia. }
  rewrite (u32_small _ P). remember ((r - r / 1460 + r / 36524 - r / 146096) / 365) as yoe.
  remember (r - (365 * yoe + yoe / 4 - yoe / 100)) as doy.
  remember ((5 * doy + 2) / 153) as mp.
  destruct I as (V & Y & DD & _).
  assert (Yq : forall b : bool, yoe + (if b then 1 else 0) - (if b then 1 else 0) = yoe) by (intros; lia).
  rewrite Yq in *. unfold era_day in DD. unfold valid_date in V. rewrite !andb_true_iff in V. destruct V as [[[V1 V2] V3] V4].
  pose proof (month_length_range (yoe + (if (if mp <? 10 then mp + 3 else mp - 9) <=? 2 then 1 else 0)) (if mp <? 10 then mp + 3 else mp - 9)) as ML.
  assert (D0 : 0 <= doy < 2 ^ 32).
  { assert (0 <= (153 * (if 2 <? (if mp <? 10 then mp + 3 else mp - 9) then (if mp <? 10 then mp + 3 else mp - 9) - 3 else (if mp <? 10 then mp + 3 else mp - 9) + 9) + 2) / 5 <= 500).
    { remember (if 2 <? (if mp <? 10 then mp + 3 else mp - 9) then (if mp <? 10 then mp + 3 else mp - 9) - 3 else (if mp <? 10 then mp + 3 else mp - 9) + 9) as mm.
      assert (0 <= mm <= 11) by (subst mm; destruct (mp <? 10) eqn:?, (2 <? _) eqn:?; lia). clear -H. Z.div_mod_to_equations. lia. }
    subst doy. lia. }
  rewrite (u32_small doy D0), <- Heqmp. rewrite (u32_small (doy - _ + 1)) by lia.
  unfold shift. f_equal. f_equal. f_equal. lia.
Qed.

(** The exact day number for any numbers in the fields, valid or not. *)
Definition day_number (y m d : Z) : Z :=
  let _y := y - (if m <=? 2 then 1 else 0) in _y / 400 * 146097 + era_day (_y mod 400) m d - 719468.

Theorem to_days_exact y m d : 0 <= y < 10000 -> 0 <= m < 100 -> 0 <= d < 100 -> to_days y m d = day_number y m d.
Proof.
  intros Hy Hm Hd. unfold to_days, day_number. cbv zeta.
  assert (Sy : to_signed 32 y = y) by (unfold to_signed; destruct (Z.ltb_spec y (2 ^ (32 - 1))); lia).
  rewrite Sy. remember (y - (if m <=? 2 then 1 else 0)) as yy.
  assert (Hyy : -1 <= yy < 10000) by (subst yy; destruct (m <=? 2); lia). clear Heqyy Sy.
  rewrite quot_400.
  pose proof (Z.div_mod yy 400 ltac:(lia)) as DM. pose proof (Z.mod_pos_bound yy 400 ltac:(lia)) as B.
  remember (yy / 400) as q. remember (yy mod 400) as r. replace (yy - q * 400) with r by lia. rewrite (u32_small r) by lia.
  unfold era_day. remember (if 2 <? m then m - 3 else m + 9) as mm.
  assert (Hmm : 0 <= mm < 100) by (subst mm; destruct (2 <? m) eqn:?; lia).
  rewrite (u32_small (153 * mm + 2)) by lia.
  remember ((153 * mm + 2) / 5) as mo. assert (Hmo : 0 <= mo < 5000) by (subst mo; clear -Hmm; Z.div_mod_to_equations; lia).
  remember (r * 365 + r / 4 - r / 100) as yd. assert (Hyd : 0 <= yd < 200000) by (subst yd; clear -B; Z.div_mod_to_equations; lia).
  enough (to_signed 32 (u32 (yd + u32 (mo + d - 1))) = yd + mo + d - 1) by lia.
  unfold u32. rewrite Z.add_mod_idemp_r by lia. fold (to_unsigned 32 (yd + (mo + d - 1))).
  rewrite (to_signed_unsigned 32); lia.
Qed.

Lemma day_number_civil n : let '(y, m, d) := civil n in day_number y m d = n.
Proof.
  unfold civil. pose proof (Z.mod_pos_bound (n + 719468) 146097 ltac:(lia)) as B. pose proof (era_inv _ B) as I.
  pose proof (Z.div_mod (n + 719468) 146097 ltac:(lia)) as DM.
  destruct (era_date ((n + 719468) mod 146097)) as [[y m] d]. unfold shift. destruct I as (_ & Y & DD & _).
  unfold day_number. remember ((n + 719468) / 146097) as q. remember (if m <=? 2 then 1 else 0) as b.
  replace (y + 400 * q - b) with (y - b + q * 400) by lia. rewrite Z.div_add, Z.mod_add, Z.div_small, Z.mod_small by lia. lia.
Qed.

(** Every valid date is reached. *)
Lemma date_ok_all yoe m d : 0 <= yoe < 400 -> valid_date (yoe + (if m <=? 2 then 1 else 0), m, d) = true ->
  0 <= era_day yoe m d < 146097 /\ era_date (era_day yoe m d) = (yoe + (if m <=? 2 then 1 else 0), m, d).
Proof.
  intros Y V. unfold valid_date in V. rewrite !andb_true_iff in V. destruct V as [[[V1 V2] V3] V4].
  remember (if 2 <? m then m - 3 else m + 9) as mp. assert (MR : 0 <= mp < 12) by (subst mp; destruct (2 <? m) eqn:?; lia).
  assert (Hm : m = if mp <? 10 then mp + 3 else mp - 9) by (subst mp; destruct (2 <? m) eqn:?; [destruct (m - 3 <? 10) eqn:?|destruct (m + 9 <? 10) eqn:?]; lia).
  pose proof (mp_month_length (yoe + (if m <=? 2 then 1 else 0)) mp MR) as ML. cbv zeta in ML. rewrite <- Hm in ML.
  assert (DM : d <= mp_length mp).
  { destruct (Z.eqb_spec mp 11) as [E|]; [rewrite E; change (mp_length 11) with 29; destruct (leap _); lia|lia]. }
  assert (ED : era_day yoe m d = years_before yoe + months_before mp + d - 1) by (unfold era_day, years_before, months_before; rewrite <- Heqmp; lia).
  assert (DR : 0 <= months_before mp + d - 1 < year_days yoe).
  { split; [unfold months_before; lia|]. destruct (Z.eq_dec mp 11) as [E|N].
    - assert (m = 2) by (rewrite Hm, E; reflexivity). rewrite E, H in *. change (2 <=? 2) with true in ML. cbv iota in ML.
      change (11 =? 11) with true in ML. change (months_before 11) with 337. unfold year_days. change (2 <=? 2) with true in V4. cbv iota in V4. destruct (leap (yoe + 1)); lia.
    - assert (months_before mp + mp_length mp <= 337).
      { clear -MR N. assert (X : mp = 0 \/ mp = 1 \/ mp = 2 \/ mp = 3 \/ mp = 4 \/ mp = 5 \/ mp = 6 \/ mp = 7 \/ mp = 8 \/ mp = 9 \/ mp = 10) by lia.
        destruct X as [->|[->|[->|[->|[->|[->|[->|[->|[->|[->| ->]]]]]]]]]]; vm_compute; discriminate. }
      unfold year_days. destruct (leap (yoe + 1)); lia. }
  pose proof (year_end yoe Y) as YE. rewrite ED. split; [unfold years_before in *; lia|].
  unfold era_date. cbv zeta. rewrite (era_year_unique _ yoe) by lia.
  replace (years_before yoe + months_before mp + d - 1 - years_before yoe) with (months_before mp + d - 1) by lia.
  rewrite (era_month_unique _ mp) by lia. rewrite <- Hm. f_equal. lia.
Qed.
Theorem civil_day_number y m d : valid_date (y, m, d) = true -> civil (day_number y m d) = (y, m, d).
Proof.
  intros V. unfold day_number. remember (y - (if m <=? 2 then 1 else 0)) as yy.
  pose proof (Z.div_mod yy 400 ltac:(lia)) as DM. pose proof (Z.mod_pos_bound yy 400 ltac:(lia)) as B.
  remember (yy / 400) as q. remember (yy mod 400) as r.
  assert (Ey : y = r + (if m <=? 2 then 1 else 0) + 400 * q) by (destruct (m <=? 2); lia).
  assert (V' : valid_date (r + (if m <=? 2 then 1 else 0), m, d) = true).
  { rewrite <- (valid_shift q). unfold shift. now rewrite <- Ey. }
  destruct (date_ok_all r m d B V') as [O1 O3]. unfold civil.
  replace (q * 146097 + era_day r m d - 719468 + 719468) with (era_day r m d + q * 146097) by lia.
  rewrite Z.div_add, Z.mod_add, Z.div_small, Z.mod_small by lia. rewrite O3. unfold shift. now rewrite Z.add_0_l, <- Ey.
Qed.
Theorem civil_inj a b : civil a = civil b -> a = b.
Proof. intros H. pose proof (day_number_civil a) as A. pose proof (day_number_civil b) as B. rewrite H in A. destruct (civil b) as [[y m] d]. congruence. Qed.
