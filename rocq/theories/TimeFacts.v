(** * Proofs about the time conversions. *)
From Verif Require Import Base Decimal Asset Time TimeSpec.

Lemma u32_small z : 0 <= z < 2 ^ 32 -> u32 z = z.
Proof. apply Z.mod_small. Qed.
Lemma u64_small z : 0 <= z < 2 ^ 64 -> u64 z = z.
Proof. apply Z.mod_small. Qed.

Lemma quot_floor z k : 0 < k -> Z.quot (if 0 <=? z then z else z - (k - 1)) k = z / k.
Proof.
  intros K. destruct (Z.leb_spec 0 z).
  - apply Z.quot_div_nonneg; lia.
  - rewrite <- (Z.opp_involutive (z - (k - 1))), Z.quot_opp_l, Z.quot_div_nonneg by lia.
    apply (Z.div_unique _ _ _ (k - 1 - (- (z - (k - 1))) mod k)).
    + pose proof (Z.mod_pos_bound (- (z - (k - 1))) k K). left. lia.
    + pose proof (Z.div_mod (- (z - (k - 1))) k ltac:(lia)). lia.
Qed.
Lemma chrono_floor_div us k : 0 < k -> chrono_floor us k = us / k.
Proof.
  intros K. unfold chrono_floor. pose proof (Z.quot_rem' us k) as Q.
  destruct (Z.le_gt_cases 0 us) as [P|P].
  - pose proof (Z.rem_bound_pos us k P K). destruct (Z.ltb_spec us (Z.quot us k * k)); [lia|]. apply Z.quot_div_nonneg; lia.
  - pose proof (Z.rem_nonpos us k ltac:(lia) ltac:(lia)). pose proof (Z.rem_bound_abs us k ltac:(lia)).
    destruct (Z.ltb_spec us (Z.quot us k * k)).
    + apply (Z.div_unique _ _ _ (k + Z.rem us k)); lia.
    + apply (Z.div_unique _ _ _ 0); lia.
Qed.

(** ** One era of 400 years *)
Definition era_year (doe : Z) : Z := (doe - doe / 1460 + doe / 36524 - doe / 146096) / 365.
Definition years_before (yoe : Z) : Z := 365 * yoe + yoe / 4 - yoe / 100.
Definition era_month (doy : Z) : Z := (5 * doy + 2) / 153.
Definition months_before (mp : Z) : Z := (153 * mp + 2) / 5.
(** The day [doe] of the era which starts on year 0, March 1. *)
Definition era_date (doe : Z) : date :=
  let yoe := era_year doe in
  let doy := doe - years_before yoe in
  let mp := era_month doy in
  let d := doy - months_before mp + 1 in
  let m := if mp <? 10 then mp + 3 else mp - 9 in
  (yoe + (if m <=? 2 then 1 else 0), m, d).
Definition shift (k : Z) (x : date) : date := let '(y, m, d) := x in (y + 400 * k, m, d).

(** The calendar date of day [n], for all integers. *)
Definition civil (n : Z) : date := shift ((n + 719468) / 146097) (era_date ((n + 719468) mod 146097)).

(** The day of the era for a year of the era (0 = the year starting in March), month, day. *)
Definition era_day (yoe m d : Z) : Z :=
  yoe * 365 + yoe / 4 - yoe / 100 + (153 * (if 2 <? m then m - 3 else m + 9) + 2) / 5 + d - 1.

Definition date_eqb (a b : date) : bool :=
  let '(y, m, d) := a in let '(y', m', d') := b in (y =? y') && (m =? m') && (d =? d').
Lemma date_eqb_eq a b : date_eqb a b = true -> a = b.
Proof. destruct a as [[y m] d], b as [[y' m'] d']. cbn [date_eqb]. intros. f_equal; [f_equal|]; lia. Qed.


(** The length of the year which starts in March of year [yoe]. *)
Definition year_days (yoe : Z) : Z := if leap (yoe + 1) then 366 else 365.
Lemma leap_spec y : leap y = true <-> (y mod 4 = 0 /\ (y mod 100 <> 0 \/ y mod 400 = 0)).
Proof. unfold leap. lia. Qed.
Ltac leap_cases L :=
  match goal with |- context [leap ?y] => destruct (leap y) eqn:L; [apply leap_spec in L|apply not_true_iff_false in L; rewrite leap_spec in L] end.
Lemma years_before_next k : 0 <= k < 399 -> years_before (k + 1) = years_before k + year_days k.
Proof. intros H. unfold years_before, year_days. leap_cases L; lia. Qed.
Lemma era_year_range doe : 0 <= doe < 146097 -> 0 <= era_year doe < 400.
Proof. unfold era_year. intros. lia. Qed.
Lemma era_year_days doe : 0 <= doe < 146097 ->
  years_before (era_year doe) <= doe < years_before (era_year doe) + year_days (era_year doe).
Proof.
  intros. pose proof (era_year_range doe H). unfold year_days. leap_cases L; unfold era_year, years_before in *; lia.
Qed.
Lemma year_end k : 0 <= k < 400 -> years_before k + year_days k <= 146097.
Proof. intros H. unfold years_before, year_days. leap_cases L; lia. Qed.
Lemma era_year_unique doe k : 0 <= k < 400 -> years_before k <= doe < years_before k + year_days k -> era_year doe = k.
Proof.
  intros K. pose proof (year_end k K) as E. unfold year_days in *. revert E. leap_cases L; unfold era_year, years_before in *; intros; lia.
Qed.
(** Months counted from March: 0 = March ... 11 = February. *)
Definition mp_length (mp : Z) : Z :=
  if (mp =? 1) || (mp =? 3) || (mp =? 6) || (mp =? 8) then 30 else if mp =? 11 then 29 else 31.
Lemma era_month_range doy : 0 <= doy < 366 -> 0 <= era_month doy < 12 /\
  1 <= doy - months_before (era_month doy) + 1 <= mp_length (era_month doy).
Proof.
  intros H. assert (R : 0 <= era_month doy < 12 /\ 153 * era_month doy <= 5 * doy + 2 < 153 * era_month doy + 153) by (unfold era_month; lia).
  destruct R as [M B]. split; [exact M|]. remember (era_month doy) as mp. clear Heqmp.
  assert (X : mp = 0 \/ mp = 1 \/ mp = 2 \/ mp = 3 \/ mp = 4 \/ mp = 5 \/ mp = 6 \/ mp = 7 \/ mp = 8 \/ mp = 9 \/ mp = 10 \/ mp = 11) by lia.
  destruct X as [->|[->|[->|[->|[->|[->|[->|[->|[->|[->|[->| ->]]]]]]]]]]];
    unfold months_before; match goal with |- context [mp_length ?x] => let v := eval vm_compute in (mp_length x) in change (mp_length x) with v end; lia.
Qed.
Lemma era_month_unique doy mp : 0 <= mp < 12 -> 1 <= doy - months_before mp + 1 <= mp_length mp -> era_month doy = mp.
Proof.
  intros M. assert (X : mp = 0 \/ mp = 1 \/ mp = 2 \/ mp = 3 \/ mp = 4 \/ mp = 5 \/ mp = 6 \/ mp = 7 \/ mp = 8 \/ mp = 9 \/ mp = 10 \/ mp = 11) by lia.
  unfold era_month. destruct X as [->|[->|[->|[->|[->|[->|[->|[->|[->|[->|[->| ->]]]]]]]]]]];
    unfold months_before; match goal with |- context [mp_length ?x] => let v := eval vm_compute in (mp_length x) in change (mp_length x) with v end; lia.
Qed.
Lemma months_before_next mp : 0 <= mp < 11 -> months_before (mp + 1) = months_before mp + mp_length mp.
Proof.
  intros H. assert (X : mp = 0 \/ mp = 1 \/ mp = 2 \/ mp = 3 \/ mp = 4 \/ mp = 5 \/ mp = 6 \/ mp = 7 \/ mp = 8 \/ mp = 9 \/ mp = 10) by lia.
  destruct X as [->|[->|[->|[->|[->|[->|[->|[->|[->|[->| ->]]]]]]]]]]; reflexivity.
Qed.
Lemma mp_month mp : 0 <= mp < 12 -> let m := if mp <? 10 then mp + 3 else mp - 9 in
  1 <= m <= 12 /\ (if 2 <? m then m - 3 else m + 9) = mp /\ (m <=? 2) = (10 <=? mp).
Proof.
  intros H m. unfold m. assert (X : mp = 0 \/ mp = 1 \/ mp = 2 \/ mp = 3 \/ mp = 4 \/ mp = 5 \/ mp = 6 \/ mp = 7 \/ mp = 8 \/ mp = 9 \/ mp = 10 \/ mp = 11) by lia.
  destruct X as [->|[->|[->|[->|[->|[->|[->|[->|[->|[->|[->| ->]]]]]]]]]]]; (split; [vm_compute; split; discriminate|split; reflexivity]).
Qed.
Lemma mp_month_length y mp : 0 <= mp < 12 -> let m := if mp <? 10 then mp + 3 else mp - 9 in
  month_length y m = if mp =? 11 then (if leap y then 29 else 28) else mp_length mp.
Proof.
  intros H m. unfold m, month_length, mp_length.
  assert (X : mp = 0 \/ mp = 1 \/ mp = 2 \/ mp = 3 \/ mp = 4 \/ mp = 5 \/ mp = 6 \/ mp = 7 \/ mp = 8 \/ mp = 9 \/ mp = 10 \/ mp = 11) by lia.
  destruct X as [->|[->|[->|[->|[->|[->|[->|[->|[->|[->|[->| ->]]]]]]]]]]]; reflexivity.
Qed.
