(** * Property C56: arithmetic and comparisons of the time types.
    Model: TimeArith.v, Time.v. Specification: TimeArithSpec.v. *)
From Verif Require Import Base Decimal Asset Time TimeFacts TimeArith TimeArithSpec.

Lemma fits64 z : fits_s 64 z = true <-> is_int64 z.
Proof. unfold fits_s, is_int64. change (64 - 1) with 63. lia. Qed.
Lemma wrap64 z : is_int64 (wrap_s 64 z) /\ exists k, wrap_s 64 z = z + k * 2 ^ 64.
Proof.
  unfold wrap_s, to_signed, is_int64. change (64 - 1) with 63.
  pose proof (Z.mod_pos_bound z (2 ^ 64) ltac:(lia)). pose proof (Z.div_mod z (2 ^ 64) ltac:(lia)).
  destruct (Z.ltb_spec (z mod 2 ^ 64) (2 ^ 63)).
  - split; [lia|]. exists (- (z / 2 ^ 64)). lia.
  - split; [lia|]. exists (- (z / 2 ^ 64) - 1). lia.
Qed.
Lemma int64_op_result m z : int64_result z m (int64_op m z).
Proof.
  unfold int64_op. destruct (fits_s 64 z) eqn:F.
  - constructor. now apply fits64.
  - assert (N : ~ is_int64 z) by (rewrite <- fits64; congruence).
    destruct m; [now constructor|]. destruct (wrap64 z) as [R (k & E)]. now apply Wraps with k.
Qed.
Lemma u32_result z : uint32_result z (u32 z).
Proof.
  unfold uint32_result, u32, is_uint32. split; [apply Z.mod_pos_bound; lia|].
  exists (- (z / 2 ^ 32)). pose proof (Z.div_mod z (2 ^ 32) ltac:(lia)). lia.
Qed.
Lemma result_unique z m r r' : int64_result z m r -> int64_result z m r' -> r = r'.
Proof.
  intros H. destruct H; intros H'; inversion H'; subst; auto; try contradiction.
  f_equal. unfold is_int64 in *. nia.
Qed.

(** ** Sums and differences: the exact result, or overflow. *)
Theorem C56_microseconds : forall m a b,
  int64_result (a + b) m (microseconds_add m a b) /\ int64_result (a - b) m (microseconds_sub m a b).
Proof. intros. split; apply int64_op_result. Qed.
Print Assumptions C56_microseconds.
Theorem C56_time_point : forall m t u,
  int64_result (t + u) m (time_point_add m t u) /\ int64_result (t + u) m (time_point_add_point m t u) /\
  int64_result (t - u) m (time_point_sub m t u) /\ int64_result (t - u) m (time_point_diff m t u).
Proof. intros. repeat split; apply int64_op_result. Qed.
Print Assumptions C56_time_point.
(** Whole seconds of a duration: the fraction is dropped, towards zero. *)
Theorem C56_to_seconds : forall c, is_int64 c ->
  exists f, c = microseconds_to_seconds c * 1000000 + f /\ Z.abs f < 1000000 /\ (0 <= c -> 0 <= f) /\ (c <= 0 -> f <= 0).
Proof.
  intros c _. unfold microseconds_to_seconds. exists (Z.rem c 1000000).
  pose proof (Z.quot_rem' c 1000000). pose proof (Z.rem_bound_abs c 1000000 ltac:(lia)).
  split; [lia|]. split; [lia|]. split; intros.
  - pose proof (Z.rem_bound_pos c 1000000). lia.
  - pose proof (Z.rem_bound_neg_pos c 1000000). destruct (Z.eq_dec c 0) as [->|]; [now rewrite Z.rem_0_l|lia].
Qed.
Print Assumptions C56_to_seconds.

(** ** Units. *)
Lemma wrap64_of z w k : is_int64 w -> w = z + k * 2 ^ 64 -> wrap_s 64 z = w.
Proof. intros R E. destruct (wrap64 z) as [R' (k' & E')]. unfold is_int64 in *. nia. Qed.
Lemma op_wrap z : int64_op Wrap z = Ok (wrap_s 64 z).
Proof.
  unfold int64_op. destruct (fits_s 64 z) eqn:F; [|reflexivity]. f_equal. symmetry.
  apply (wrap64_of z z 0); [now apply fits64|lia].
Qed.
Lemma op_ok m z : is_int64 z -> int64_op m z = Ok z.
Proof. intros F. apply fits64 in F. unfold int64_op. now rewrite F. Qed.
Lemma op_undef z : ~ is_int64 z -> int64_op Strict z = Undef "signed overflow".
Proof. intros F. rewrite <- fits64 in F. unfold int64_op. now destruct (fits_s 64 z). Qed.
(** A product computed in two steps gives the result for the whole product. *)
Lemma two_steps m a b z (f : Z -> res Z) :
  (forall x, int64_result (b * x) m (f x)) -> 1 <= b -> int64_result (a * z * b) m (let* y := int64_op m (a * z) in f y).
Proof.
  intros H B. destruct m.
  - destruct (fits_s 64 (a * z)) eqn:F.
    + apply fits64 in F. rewrite op_ok by auto. cbn [bind]. rewrite Z.mul_comm. apply H.
    + assert (N : ~ is_int64 (a * z)) by (rewrite <- fits64; congruence). rewrite op_undef by auto.
      constructor. unfold is_int64 in *. nia.
  - rewrite op_wrap. cbn [bind]. destruct (wrap64 (a * z)) as [R (k & E)]. specialize (H (wrap_s 64 (a * z))).
    assert (G : forall x y j, x = y + j * 2 ^ 64 -> forall r, int64_result x Wrap r -> int64_result y Wrap r).
    { clear. intros x y j E r X. assert (Hr : r = Ok (wrap_s 64 x)).
      { pose proof (int64_op_result Wrap x) as O. rewrite op_wrap in O. eapply result_unique; eauto. }
      assert (W : wrap_s 64 x = wrap_s 64 y).
      { destruct (wrap64 x) as [R (k & K)]. symmetry. apply (wrap64_of y _ (j + k)); [exact R|lia]. }
      rewrite Hr, W, <- op_wrap. apply int64_op_result. }
    refine (G _ _ (b * k) _ _ H). rewrite E. ring.
Qed.
(** A unit of [n] microseconds, times the count: exact whenever the microseconds fit. *)
Theorem C56_units : forall m x,
  int64_result (x * 1000) m (make_milliseconds m x) /\
  int64_result (x * 1000000) m (make_seconds m x) /\
  int64_result (x * (60 * 1000000)) m (make_minutes m x) /\
  int64_result (x * (60 * 60 * 1000000)) m (make_hours m x) /\
  int64_result (x * (24 * 60 * 60 * 1000000)) m (make_days m x).
Proof.
  intros m.
  assert (S : forall x, int64_result (1000000 * x) m (make_seconds m x)) by (intros x; rewrite Z.mul_comm; apply int64_op_result).
  assert (M : forall x, int64_result (60 * 1000000 * x) m (make_minutes m x)).
  { intros x. replace (60 * 1000000 * x) with (60 * x * 1000000) by ring. apply two_steps; [exact S|lia]. }
  assert (H : forall x, int64_result (60 * 60 * 1000000 * x) m (make_hours m x)).
  { intros x. replace (60 * 60 * 1000000 * x) with (60 * x * (60 * 1000000)) by ring. apply two_steps; [exact M|lia]. }
  intros x. split; [apply int64_op_result|]. split; [apply int64_op_result|].
  split; [rewrite Z.mul_comm; apply M|]. split; [rewrite Z.mul_comm; apply H|].
  replace (x * (24 * 60 * 60 * 1000000)) with (24 * x * (60 * 60 * 1000000)) by ring. apply two_steps; [exact H|lia].
Qed.
Print Assumptions C56_units.

(** ** Moving forth and back. *)
Theorem C56_there_and_back : forall m t d t', is_int64 t -> is_int64 d ->
  (time_point_add m t d = Ok t' -> time_point_sub m t' d = Ok t) /\
  (time_point_sub m t d = Ok t' -> time_point_add m t' d = Ok t).
Proof.
  intros m t d t' T D.
  assert (G : forall z, z = t' \/ (exists k, t' = z + k * 2 ^ 64) -> forall e, z + e = t -> int64_op m (t' + e) = Ok t \/ (m = Strict /\ z <> t')).
  { intros z Z0 e E. destruct (Z.eq_dec z t') as [->|N].
    - left. rewrite E. now apply op_ok.
    - destruct m; [right; auto|]. left. destruct Z0 as [|(k & Z0)]; [contradiction|]. rewrite op_wrap. f_equal. apply (wrap64_of _ t (-k)); [exact T|lia]. }
  assert (K : forall z, int64_op m z = Ok t' -> (z = t' \/ exists k, t' = z + k * 2 ^ 64) /\ (m = Strict -> z = t')).
  { intros z H. pose proof (int64_op_result m z) as R. rewrite H in R. inversion R; subst; split; auto; try discriminate. right. eauto. }
  unfold time_point_add, time_point_sub, microseconds_add, microseconds_sub. split; intros H; apply K in H; destruct H as [H S].
  - destruct (G _ H (- d) ltac:(lia)) as [X|[X Y]]; [exact X|]. now destruct (Y (S X)).
  - destruct (G _ H d ltac:(lia)) as [X|[X Y]]; [exact X|]. now destruct (Y (S X)).
Qed.
Print Assumptions C56_there_and_back.
Theorem C56_difference_moves : forall m t u d, is_int64 t -> is_int64 u ->
  time_point_diff m t u = Ok d -> time_point_add m u d = Ok t.
Proof.
  intros m t u d T U H. unfold time_point_diff in H. unfold time_point_add, microseconds_add.
  pose proof (int64_op_result m (t - u)) as R. rewrite H in R. inversion R; subst.
  - replace (u + (t - u)) with t by lia. now apply op_ok.
  - rewrite op_wrap. f_equal. apply (wrap64_of _ t (-k)); [exact T|lia].
Qed.
Print Assumptions C56_difference_moves.

(** ** time_point_sec: arithmetic modulo 2^32. *)
Theorem C56_time_point_sec : forall s n c, is_uint32 s -> is_uint32 n -> is_int64 c ->
  uint32_result (s + n) (sec_add s n) /\ uint32_result (s + n) (sec_add_sec s n) /\
  uint32_result (s - n) (sec_sub s n) /\ uint32_result (s - n) (sec_sub_sec s n) /\
  uint32_result (s + microseconds_to_seconds c) (sec_add_microseconds s c) /\
  uint32_result (s - microseconds_to_seconds c) (sec_sub_microseconds s c).
Proof. intros. repeat split; try apply u32_result. Qed.
Print Assumptions C56_time_point_sec.
Theorem C56_time_point_sec_back : forall s n c, is_uint32 s -> is_uint32 n -> is_int64 c ->
  sec_sub (sec_add s n) n = s /\ sec_add (sec_sub s n) n = s /\
  sec_sub_sec (sec_add_sec s n) n = s /\ sec_add_sec (sec_sub_sec s n) n = s /\
  sec_sub_microseconds (sec_add_microseconds s c) c = s /\ sec_add_microseconds (sec_sub_microseconds s c) c = s.
Proof.
  intros s n c S N C.
  assert (A : forall e, u32 (u32 (s + e) - e) = s).
  { intros e. destruct (u32_result (s + e)) as [R1 [k E1]]. destruct (u32_result (u32 (s + e) - e)) as [R2 [j E2]]. unfold is_uint32 in *. lia. }
  assert (B : forall e, u32 (u32 (s - e) + e) = s).
  { intros e. destruct (u32_result (s - e)) as [R1 [k E1]]. destruct (u32_result (u32 (s - e) + e)) as [R2 [j E2]]. unfold is_uint32 in *. lia. }
  repeat split; solve [apply A|apply B].
Qed.
Print Assumptions C56_time_point_sec_back.
Lemma seconds_small m s : is_uint32 s -> make_seconds m s = Ok (s * 1000000).
Proof. unfold is_uint32. intros S. apply op_ok. unfold is_int64. lia. Qed.
(** Mixed with microseconds and time_points: as if the seconds were a time_point. *)
Theorem C56_mixed : forall m s u c, is_uint32 s -> is_uint32 u -> is_int64 c ->
  int64_result (s * 1000000 + c) m (sec_plus_microseconds m s c) /\
  int64_result (s * 1000000 - c) m (sec_minus_microseconds m s c) /\
  int64_result (c - s * 1000000) m (point_minus_sec m c s) /\
  sec_minus_sec m s u = Ok ((s - u) * 1000000).
Proof.
  intros m s u c S U C. unfold sec_plus_microseconds, sec_minus_microseconds, point_minus_sec, sec_minus_sec.
  rewrite !seconds_small by auto. cbn [bind]. split; [apply int64_op_result|]. split; [apply int64_op_result|].
  split; [apply int64_op_result|]. unfold time_point_diff. replace (s * 1000000 - u * 1000000) with ((s - u) * 1000000) by ring.
  apply op_ok. unfold is_uint32, is_int64 in *. lia.
Qed.
Print Assumptions C56_mixed.
(** The converted time_point is the time the seconds stand for. *)
Theorem C56_conversion : forall m s, is_uint32 s -> make_seconds m s = Ok (time_point_of_sec s) /\ is_int64 (time_point_of_sec s).
Proof. intros m s S. split; [now apply seconds_small|]. unfold is_int64, is_uint32, time_point_of_sec in *. lia. Qed.
Print Assumptions C56_conversion.
(** The other order of a mixed difference loses the fraction of the second. *)
Theorem C56_mixed_difference : forall m s t, is_uint32 s -> 0 <= t < 2 ^ 32 * 1000000 ->
  sec_minus_point m s t = Ok (s * 1000000 - (t - t mod 1000000)).
Proof.
  intros m s t S T. unfold sec_minus_point, sec_minus_sec, time_point_sec_of_time_point.
  rewrite Z.quot_div_nonneg by lia. rewrite u32_small by lia. rewrite !seconds_small by (unfold is_uint32 in *; lia). cbn [bind].
  unfold time_point_diff. unfold is_uint32 in S. rewrite op_ok by (unfold is_int64; lia). f_equal. lia.
Qed.
Print Assumptions C56_mixed_difference.
Theorem C56_mixed_difference_refuted : exists s t d e, is_uint32 s /\ 0 <= t < 2 ^ 32 * 1000000 /\
  sec_minus_point Strict s t = Ok d /\ point_minus_sec Strict t s = Ok e /\ d <> - e.
Proof.
  exists 10, 10900000, 0, 900000. split; [unfold is_uint32; lia|]. split; [lia|]. split; [reflexivity|]. split; [reflexivity|lia].
Qed.
Print Assumptions C56_mixed_difference_refuted.

(** ** Comparisons. *)
Lemma compare_ints_spec a b : compare_ints a b = match Z.compare a b with Lt => -1 | Gt => 1 | Eq => 0 end.
Proof. unfold compare_ints. destruct (Z.compare_spec a b), (Z.ltb_spec a b), (Z.ltb_spec b a); lia. Qed.
Lemma int_order (dom : Z -> Prop) (key : Z -> Z) cmp eq : (forall a b, cmp a b = compare_ints a b) -> (forall a b, eq a b = (a =? b)) ->
  (forall a b, dom a -> dom b -> a < b -> key a < key b) ->
  ordered_by dom key (lt_by cmp) (gt_by cmp) (le_by cmp) (ge_by cmp) eq (ne_by eq).
Proof.
  intros C E K a b A B. unfold lt_by, gt_by, le_by, ge_by, ne_by. rewrite C, E, compare_ints_spec.
  pose proof (K a b A B). pose proof (K b a B A). assert (a = b -> key a = key b) by congruence.
  destruct (Z.compare_spec a b), (Z.eqb_spec a b); repeat split; intros; try lia; try reflexivity; try discriminate; auto.
Qed.
Lemma slot_order (dom : Z -> Prop) (key : Z -> Z) : (forall a b, dom a -> dom b -> a < b -> key a < key b) ->
  ordered_by dom key slot_lt slot_gt slot_le slot_ge slot_eq slot_ne.
Proof.
  intros K a b A B. unfold slot_lt, slot_gt, slot_le, slot_ge, slot_eq, slot_ne.
  pose proof (K a b A B). pose proof (K b a B A). assert (a = b -> key a = key b) by congruence.
  destruct (Z.ltb_spec a b), (Z.ltb_spec b a), (Z.leb_spec a b), (Z.leb_spec b a), (Z.eqb_spec a b); try lia;
    repeat split; intros; try lia; try reflexivity; try discriminate; auto.
Qed.
(** All four types are ordered as the instants (durations) they stand for: the microseconds
    of a duration, of a time_point, of the time_point a time_point_sec or a block_timestamp
    converts to. *)
Theorem C56_order :
  ordered_by is_int64 (fun c => c) (lt_by compare_microseconds) (gt_by compare_microseconds) (le_by compare_microseconds)
    (ge_by compare_microseconds) eq_microseconds (ne_by eq_microseconds) /\
  ordered_by is_int64 (fun t => t) (lt_by compare_time_points) (gt_by compare_time_points) (le_by compare_time_points)
    (ge_by compare_time_points) eq_time_points (ne_by eq_time_points) /\
  ordered_by is_uint32 time_point_of_sec (lt_by compare_secs) (gt_by compare_secs) (le_by compare_secs)
    (ge_by compare_secs) eq_secs (ne_by eq_secs) /\
  ordered_by is_uint32 time_point_of_block_timestamp slot_lt slot_gt slot_le slot_ge slot_eq slot_ne.
Proof.
  split; [apply int_order; auto|]. split; [apply int_order; auto|].
  split; [apply int_order; auto; unfold time_point_of_sec; intros; lia|].
  apply slot_order. unfold time_point_of_block_timestamp. intros; lia.
Qed.
Print Assumptions C56_order.
(** Converting to a coarser type keeps the order (not strictly), in the range of the type. *)
Theorem C56_conversions_monotone : forall t u, t <= u ->
  (0 <= t -> u < 2 ^ 32 * 1000000 -> time_point_sec_of_time_point t <= time_point_sec_of_time_point u) /\
  (946684800000000 <= t -> u < 946684800000000 + 2 ^ 32 * 500000 ->
   block_timestamp_of_time_point t <= block_timestamp_of_time_point u).
Proof.
  intros t u L. split; intros A B.
  - unfold time_point_sec_of_time_point. rewrite !Z.quot_div_nonneg by lia. rewrite !u32_small by lia. lia.
  - unfold block_timestamp_of_time_point. rewrite !(Z.quot_div_nonneg _ 1000) by lia. rewrite !Z.quot_div_nonneg by lia.
    rewrite !u32_small by lia. lia.
Qed.
Print Assumptions C56_conversions_monotone.
Theorem C56_limits :
  is_int64 microseconds_maximum /\ (forall c, is_int64 c -> c <= microseconds_maximum) /\
  is_int64 time_point_max /\ (forall t, is_int64 t -> t <= time_point_max) /\
  is_uint32 time_point_sec_maximum /\ is_uint32 time_point_sec_min /\ (forall s, is_uint32 s -> time_point_sec_min <= s <= time_point_sec_maximum) /\
  is_uint32 block_timestamp_min /\ (forall s, is_uint32 s -> block_timestamp_min <= s).
Proof.
  unfold is_int64, is_uint32, time_point_max, microseconds_maximum, time_point_sec_maximum, time_point_sec_min, block_timestamp_min.
  repeat split; intros; lia.
Qed.
Print Assumptions C56_limits.
(** The documented maximum of a block_timestamp is exceeded 9 hours after its first slot. *)
Theorem C56_block_timestamp_maximum_refuted : exists s, is_uint32 s /\ slot_gt s block_timestamp_maximum = true /\
  block_timestamp_next block_timestamp_maximum = Ok s /\ time_point_of_block_timestamp s = 946684800000000 + 32768 * 1000000.
Proof. exists 65536. split; [unfold is_uint32; lia|]. repeat split; reflexivity. Qed.
Print Assumptions C56_block_timestamp_maximum_refuted.

Example C56_example :
  make_days Strict 2 = Ok 172800000000 /\ make_days Strict 106751991 = Ok 9223372022400000000 /\
  make_days Strict 106751992 = Undef "signed overflow" /\ make_days Wrap 106751992 = Ok (-9223371964909551616) /\
  time_point_add Strict 1500000 (-2000000) = Ok (-500000) /\ microseconds_to_seconds (-1500000) = -1 /\
  sec_add 4294967295 1 = 0 /\ sec_sub 0 1 = 4294967295 /\ sec_add_microseconds 5 (-6000000) = 4294967295 /\
  sec_minus_sec Strict 3 5 = Ok (-2000000) /\ lt_by compare_secs 3 5 = true /\ slot_ge 5 5 = true /\
  is_int64 1500000 /\ is_uint32 4294967295.
Proof. unfold is_int64, is_uint32. repeat split; try reflexivity; lia. Qed.
