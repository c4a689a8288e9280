(** * Facts about streams and varints (proofs only) *)
From Verif Require Import Base Stream.

(** Specification vocabulary: LEB128 groups. *)
Fixpoint leb_value (l : bytes) : Z :=
  match l with
  | [] => 0
  | b :: l' => b mod 128 + 128 * leb_value l'
  end.
(** All bytes but the last have the continuation bit. *)
Fixpoint leb_shape (l : bytes) : Prop :=
  match l with
  | [] => False
  | b :: l' => match l' with
               | [] => 0 <= b < 128
               | _ :: _ => 128 <= b < 256 /\ leb_shape l'
               end
  end.

(** Canonical encoding, used in proofs. *)
Fixpoint leb (fuel : nat) (v : Z) : bytes :=
  match fuel with
  | O => []
  | S f => if v <? 128 then [v] else (128 + v mod 128) :: leb f (v / 128)
  end.

Definition wbytes (S : ostream) (l : bytes) (s : ost S) : res (ost S) :=
  mfold (owrite S) (map (fun b => [b]) l) s.

Lemma land127 v : Z.land v 127 = v mod 128.
Proof. change 127 with (Z.ones 7). rewrite Z.land_ones by lia. reflexivity. Qed.

Lemma cont_byte v : 0 <= v ->
  Z.lor (Z.land v 127) (Z.shiftl (if 0 <? Z.shiftr v 7 then 1 else 0) 7)
  = if v <? 128 then v else 128 + v mod 128.
Proof.
  intros Hv. rewrite land127, Z.shiftr_div_pow2 by lia. change (2 ^ 7) with 128.
  pose proof (Z.mod_pos_bound v 128 ltac:(lia)).
  rewrite lor_add_disjoint by lia. change (2 ^ 7) with 128.
  destruct (Z.ltb_spec v 128).
  - rewrite Z.div_small by lia. cbn. rewrite Z.mod_small; lia.
  - assert (1 <= v / 128) by (apply Z.div_le_lower_bound; lia).
    destruct (Z.ltb_spec 0 (v / 128)); lia.
Qed.

Lemma varuint32_to_bin_loop_leb fuel S v s :
  0 <= v < 128 ^ Z.of_nat fuel -> (0 < fuel)%nat ->
  varuint32_to_bin_loop fuel S v s = wbytes S (leb fuel v) s.
Proof.
  revert v s; induction fuel as [|fuel IH]; intros v s Hv Hf; [lia|].
  cbn [varuint32_to_bin_loop leb]. rewrite cont_byte by lia.
  rewrite Z.shiftr_div_pow2 by lia. change (2 ^ 7) with 128.
  destruct (Z.ltb_spec v 128).
  - rewrite Z.div_small by lia. cbn. unfold wbytes; cbn. reflexivity.
  - assert (1 <= v / 128) by (apply Z.div_le_lower_bound; lia).
    unfold wbytes; cbn [map mfold]. destruct (owrite S s _) as [s'| |]; cbn; auto.
    destruct (Z.eqb_spec (v / 128) 0); [lia|].
    rewrite Nat2Z.inj_succ, Z.pow_succ_r in Hv by lia.
    rewrite IH; [reflexivity| |].
    + split; [lia|]. apply Z.div_lt_upper_bound; lia.
    + destruct fuel; [cbn in Hv; lia | lia].
Qed.

Lemma leb_fuel f1 f2 v : 0 <= v < 128 ^ Z.of_nat f1 -> v < 128 ^ Z.of_nat f2 ->
  (0 < f1)%nat -> (0 < f2)%nat -> leb f1 v = leb f2 v.
Proof.
  revert f2 v; induction f1 as [|f1 IH]; intros [|f2] v H1 H2 P1 P2; try lia.
  cbn [leb]. destruct (Z.ltb_spec v 128); auto. f_equal.
  rewrite Nat2Z.inj_succ, Z.pow_succ_r in H1, H2 by lia.
  assert (1 <= v / 128) by (apply Z.div_le_lower_bound; lia).
  apply IH.
  - split; [lia|]. apply Z.div_lt_upper_bound; lia.
  - apply Z.div_lt_upper_bound; lia.
  - destruct f1; [cbn in H1; lia|lia].
  - destruct f2; [cbn in H2; lia|lia].
Qed.

Lemma leb_shape_leb f v : 0 <= v < 128 ^ Z.of_nat f -> (0 < f)%nat -> leb_shape (leb f v).
Proof.
  revert v; induction f as [|f IH]; intros v H P; [lia|].
  cbn [leb]. destruct (Z.ltb_spec v 128); [cbn; lia|].
  rewrite Nat2Z.inj_succ, Z.pow_succ_r in H by lia.
  assert (1 <= v / 128) by (apply Z.div_le_lower_bound; lia).
  assert (HS : leb_shape (leb f (v / 128))).
  { apply IH. - split; [lia|]. apply Z.div_lt_upper_bound; lia.
    - destruct f; [cbn in H; lia|lia]. }
  pose proof (Z.mod_pos_bound v 128 ltac:(lia)).
  cbn [leb_shape]. destruct (leb f (v / 128)); [contradiction|]. split; [lia|exact HS].
Qed.

Lemma leb_value_leb f v : 0 <= v < 128 ^ Z.of_nat f -> leb_value (leb f v) = v.
Proof.
  revert v; induction f as [|f IH]; intros v H; [cbn in *; lia|].
  cbn [leb]. destruct (Z.ltb_spec v 128).
  - cbn. rewrite Z.mod_small; lia.
  - rewrite Nat2Z.inj_succ, Z.pow_succ_r in H by lia. cbn [leb_value].
    rewrite IH.
    + replace (128 + v mod 128) with (v mod 128 + 1 * 128) by lia.
      rewrite Z.mod_add, Z.mod_mod by lia.
      pose proof (Z.div_mod v 128). lia.
    + split; [apply Z.div_pos; lia|]. apply Z.div_lt_upper_bound; lia.
Qed.

Lemma leb_length f v : (List.length (leb f v) <= f)%nat.
Proof. revert v; induction f as [|f IH]; intros v; cbn [leb]; [auto|].
  destruct (v <? 128); cbn; [lia|]. specialize (IH (v / 128)). lia. Qed.

Lemma leb_length_nz f v : (0 < f)%nat -> (1 <= List.length (leb f v))%nat.
Proof. destruct f; [lia|]. intros _. cbn. destruct (v <? 128); cbn; lia. Qed.

Lemma leb_bytes_ok f v : 0 <= v -> bytes_ok (leb f v).
Proof.
  revert v; induction f as [|f IH]; intros v H; cbn [leb]; [constructor|].
  destruct (Z.ltb_spec v 128).
  - constructor; [unfold is_byte; lia | constructor].
  - pose proof (Z.mod_pos_bound v 128 ltac:(lia)).
    constructor; [unfold is_byte; lia|]. apply IH. apply Z.div_pos; lia.
Qed.

Lemma leb_value_bound l : 0 <= leb_value l < 128 ^ Z.of_nat (List.length l).
Proof.
  induction l as [|b l IH]; [cbn; lia|].
  cbn [leb_value List.length]. rewrite Nat2Z.inj_succ, Z.pow_succ_r by lia.
  pose proof (Z.mod_pos_bound b 128 ltac:(lia)). lia.
Qed.

Lemma leb_shape_ok l : leb_shape l -> bytes_ok l.
Proof.
  induction l as [|b l IH]; [contradiction|]. cbn [leb_shape].
  destruct l as [|c l].
  - intros H. repeat constructor; lia.
  - intros [Hb Hs]. constructor; [unfold is_byte; lia|]. apply IH. exact Hs.
Qed.

(** The canonical encoding is the shortest. *)
Lemma leb_minimal f v : 0 <= v < 128 ^ Z.of_nat f -> (0 < f)%nat ->
  forall n, (0 < n)%nat -> v < 128 ^ Z.of_nat n -> (List.length (leb f v) <= n)%nat.
Proof.
  intros Hv Hf n Hn Hvn. rewrite (leb_fuel f n) by (auto; lia). apply leb_length.
Qed.

Definition encv (v : Z) : bytes := leb 5 v.

Lemma pow128_5 : 2 ^ 32 < 128 ^ Z.of_nat 5. Proof. reflexivity. Qed.
Lemma pow128_11 : 2 ^ 32 < 128 ^ Z.of_nat 11. Proof. reflexivity. Qed.

Lemma varuint32_to_bin_eq S v s : 0 <= v ->
  varuint32_to_bin S v s = if v <? 2 ^ 32 then wbytes S (encv v) s else Err E_varuint_too_big.
Proof.
  intros Hv. unfold varuint32_to_bin, check. rewrite Z.shiftr_div_pow2 by lia.
  destruct (Z.ltb_spec v (2 ^ 32)).
  - rewrite Z.div_small by lia. cbn [Z.eqb bind].
    pose proof pow128_5. pose proof pow128_11.
    rewrite varuint32_to_bin_loop_leb by lia.
    unfold encv. rewrite (leb_fuel 11 5) by lia. reflexivity.
  - assert (1 <= v / 2 ^ 32) by (apply Z.div_le_lower_bound; lia).
    destruct (Z.eqb_spec (v / 2 ^ 32) 0); [lia|]. reflexivity.
Qed.

Lemma encv_shape v : 0 <= v < 2 ^ 32 -> leb_shape (encv v).
Proof. intros. pose proof pow128_5. apply leb_shape_leb; lia. Qed.
Lemma encv_value v : 0 <= v < 2 ^ 32 -> leb_value (encv v) = v.
Proof. intros. pose proof pow128_5. apply leb_value_leb; lia. Qed.
Lemma encv_ok v : 0 <= v -> bytes_ok (encv v).
Proof. apply leb_bytes_ok. Qed.
Lemma encv_len v : (1 <= List.length (encv v) <= 5)%nat.
Proof. split; [apply leb_length_nz; lia | apply leb_length]. Qed.

(** ** Reader *)
Lemma land128 b : is_byte b -> (Z.land b 128 =? 0) = (b <? 128).
Proof.
  intros Hb. apply eqb_prop.
  apply (byte_sweep (fun b => eqb (Z.land b 128 =? 0) (b <? 128))); [vm_compute; reflexivity|exact Hb].
Qed.

(** One group or-ed into an accumulator below it, in [bits] wide registers. *)
Lemma group_or bits dest k x : 0 <= bits -> 0 <= k -> 0 <= dest < 2 ^ k ->
  Z.lor (dest mod 2 ^ bits) (Z.shiftl x k mod 2 ^ bits) = (dest + x * 2 ^ k) mod 2 ^ bits.
Proof.
  intros Hb Hk Hd.
  rewrite <- (Z.land_ones dest), <- (Z.land_ones (Z.shiftl x k)) by lia.
  rewrite <- Z.land_lor_distr_l. rewrite lor_add_disjoint by lia.
  now rewrite Z.land_ones by lia.
Qed.

(** Result of the reader on the front of a buffer, as a recursive function on
    the buffer. *)
Fixpoint leb_read (maxn : nat) (s : bytes) : res (bytes * bytes) :=
  match maxn with
  | O => Err E_invalid_varuint_encoding
  | S n => match s with
           | [] => Err E_overrun
           | b :: s' => if b <? 128 then Ok ([b], s')
                        else let* (l, r) := leb_read n s' in Ok (b :: l, r)
           end
  end.

Lemma varuint_loop_read n fuel bits k dest s :
  bytes_ok s -> 0 <= bits -> 0 <= k -> 0 <= dest < 2 ^ k -> (n < fuel)%nat ->
  varuint_from_bin_loop fuel bits (k + 7 * Z.of_nat n) (dest mod 2 ^ bits) k s =
  (let* (l, r) := leb_read n s in Ok ((dest + leb_value l * 2 ^ k) mod 2 ^ bits, r)).
Proof.
  revert n k dest s; induction fuel as [|fuel IH]; intros n k dest s Hs Hb Hk Hd Hn; [lia|].
  cbn [varuint_from_bin_loop]. destruct n as [|n].
  - unfold check. destruct (Z.ltb_spec k (k + 7 * Z.of_nat 0)); [lia|]. reflexivity.
  - unfold check. destruct (Z.ltb_spec k (k + 7 * Z.of_nat (S n))); [|lia].
    cbn [bind leb_read]. destruct s as [|b s']; [reflexivity|]. cbn [read_u8 bind].
    apply bytes_ok_cons in Hs as [Hbb Hs'].
    rewrite land128 by assumption. rewrite land127, group_or by lia.
    pose proof (Z.mod_pos_bound b 128 ltac:(lia)) as Hm.
    destruct (Z.ltb_spec b 128).
    + cbn [negb bind leb_value]. do 3 f_equal. lia.
    + cbn [negb].
      replace (k + 7 * Z.of_nat (S n)) with ((k + 7) + 7 * Z.of_nat n) by lia.
      rewrite IH; try assumption; try lia.
      * destruct (leb_read n s') as [[l r]| |]; cbn [bind]; auto.
        cbn [leb_value]. do 3 f_equal. rewrite Z.pow_add_r by lia. change (2 ^ 7) with 128. lia.
      * rewrite Z.pow_add_r by lia. change (2 ^ 7) with 128. nia.
Qed.

Lemma varuint32_from_bin_eq s : bytes_ok s ->
  varuint32_from_bin s =
  (let* (l, r) := leb_read 5 s in Ok (leb_value l mod 2 ^ 32, r)).
Proof.
  intros Hs. unfold varuint32_from_bin.
  pose proof (varuint_loop_read 5 12 32 0 0 s Hs) as E.
  change (0 + 7 * Z.of_nat 5) with 35 in E. change (0 mod 2 ^ 32) with 0 in E.
  rewrite E by (try lia; cbn; lia).
  destruct (leb_read 5 s) as [[l r]| |]; cbn [bind]; auto.
  do 3 f_equal. change (2 ^ 0) with 1. lia.
Qed.
Lemma varuint64_from_bin_eq s : bytes_ok s ->
  varuint64_from_bin s =
  (let* (l, r) := leb_read 10 s in Ok (leb_value l mod 2 ^ 64, r)).
Proof.
  intros Hs. unfold varuint64_from_bin.
  pose proof (varuint_loop_read 10 12 64 0 0 s Hs) as E.
  change (0 + 7 * Z.of_nat 10) with 70 in E. change (0 mod 2 ^ 64) with 0 in E.
  rewrite E by (try lia; cbn; lia).
  destruct (leb_read 10 s) as [[l r]| |]; cbn [bind]; auto.
  do 3 f_equal. change (2 ^ 0) with 1. lia.
Qed.

Lemma leb_read_shape n l r : leb_shape l -> (List.length l <= n)%nat ->
  leb_read n (l ++ r) = Ok (l, r).
Proof.
  revert l; induction n as [|n IH]; intros [|b l] Hl Hn; try contradiction; try (cbn in Hn; lia).
  cbn [leb_read app]. cbn [leb_shape] in Hl. destruct l as [|c l].
  - destruct (Z.ltb_spec b 128); [reflexivity|lia].
  - destruct Hl as [Hb Hl]. destruct (Z.ltb_spec b 128); [lia|].
    rewrite IH; [reflexivity|exact Hl|cbn in *; lia].
Qed.

Lemma leb_read_Ok n s l r : bytes_ok s -> leb_read n s = Ok (l, r) ->
  s = l ++ r /\ leb_shape l /\ (List.length l <= n)%nat.
Proof.
  revert s l; induction n as [|n IH]; intros s l Hs H; [discriminate|].
  cbn [leb_read] in H. destruct s as [|b s]; [discriminate|].
  apply bytes_ok_cons in Hs as [Hb Hs]. unfold is_byte in Hb.
  destruct (Z.ltb_spec b 128).
  - inversion H; subst. cbn. split; [reflexivity|]. lia.
  - apply bind_Ok in H as [[l' r'] [E H]]. inversion H; subst.
    apply IH in E as (-> & Hl & Hn); auto. split; [reflexivity|]. split; [|cbn; lia].
    cbn [leb_shape]. destruct l'; [contradiction|]. split; [lia|exact Hl].
Qed.

Lemma leb_read_not_undef n s w : leb_read n s <> Undef w.
Proof.
  revert s w; induction n as [|n IH]; intros s w; cbn; [discriminate|].
  destruct s as [|b s]; [discriminate|]. destruct (b <? 128); [discriminate|].
  destruct (leb_read n s) as [[]| |] eqn:E; cbn; try discriminate.
  intros _. exact (IH s _ E).
Qed.

(** Error characterisation. *)
Lemma leb_read_Err n s e : bytes_ok s -> leb_read n s = Err e ->
  (e = E_overrun /\ (List.length s < n)%nat /\ Forall (fun b => 128 <= b) s) \/
  (e = E_invalid_varuint_encoding /\ (n <= List.length s)%nat /\ Forall (fun b => 128 <= b) (firstn n s)).
Proof.
  revert s; induction n as [|n IH]; intros s Hs H; cbn [leb_read] in H.
  - inversion H. right. cbn. repeat split; auto; lia.
  - destruct s as [|b s].
    + inversion H. left. cbn. repeat split; auto; lia.
    + apply bytes_ok_cons in Hs as [Hb Hs]. destruct (Z.ltb_spec b 128); [discriminate|].
      destruct (leb_read n s) as [[]| |] eqn:E; cbn in H; try discriminate.
      inversion H; subst. apply IH in E as [(-> & ? & ?)|(-> & ? & ?)]; auto.
      * left. cbn. repeat split; auto; lia.
      * right. cbn. repeat split; auto; lia.
Qed.
Lemma leb_read_overrun n s : (List.length s < n)%nat -> Forall (fun b => 128 <= b) s ->
  leb_read n s = Err E_overrun.
Proof.
  revert s; induction n as [|n IH]; intros s Hn H; [lia|]. cbn.
  destruct s as [|b s]; auto. inversion H; subst. destruct (Z.ltb_spec b 128); [lia|].
  rewrite IH; auto. cbn in Hn. lia.
Qed.
Lemma leb_read_invalid n s : (n <= List.length s)%nat -> Forall (fun b => 128 <= b) (firstn n s) ->
  leb_read n s = Err E_invalid_varuint_encoding.
Proof.
  revert s; induction n as [|n IH]; intros s Hn H; [reflexivity|]. cbn.
  destruct s as [|b s]; [cbn in Hn; lia|]. cbn in H. inversion H; subst.
  destruct (Z.ltb_spec b 128); [lia|]. rewrite IH; auto. cbn in Hn. lia.
Qed.

Lemma varuint32_roundtrip v rest : 0 <= v < 2 ^ 32 -> bytes_ok rest ->
  varuint32_from_bin (encv v ++ rest) = Ok (v, rest).
Proof.
  intros Hv Hr. rewrite varuint32_from_bin_eq.
  - rewrite leb_read_shape; [|now apply encv_shape|apply encv_len].
    cbn [bind]. rewrite encv_value by assumption. rewrite Z.mod_small by lia. reflexivity.
  - apply bytes_ok_app. split; auto. apply encv_ok. lia.
Qed.
Lemma varuint64_roundtrip v rest : 0 <= v < 2 ^ 32 -> bytes_ok rest ->
  varuint64_from_bin (encv v ++ rest) = Ok (v, rest).
Proof.
  intros Hv Hr. rewrite varuint64_from_bin_eq.
  - rewrite leb_read_shape; [|now apply encv_shape|pose proof (encv_len v); lia].
    cbn [bind]. rewrite encv_value by assumption. rewrite Z.mod_small by lia. reflexivity.
  - apply bytes_ok_app. split; auto. apply encv_ok. lia.
Qed.

(** ** Zigzag *)
Lemma zigzag_val v : - 2 ^ 31 <= v < 2 ^ 31 ->
  zigzag v = if v <? 0 then -2 * v - 1 else 2 * v.
Proof.
  intros Hv. unfold zigzag, to_unsigned.
  rewrite Z.shiftl_mul_pow2, Z.shiftr_div_pow2 by lia.
  destruct (Z.ltb_spec v 0).
  - replace (v / 2 ^ 31) with (-1) by (apply Z.div_unique with (v + 2 ^ 31); lia).
    replace (v mod 2 ^ 32) with (v + 2 ^ 32) by (apply Z.mod_unique with (-1); lia).
    replace ((v + 2 ^ 32) * 2 ^ 1 mod 2 ^ 32) with (2 * v + 2 ^ 32)
      by (apply Z.mod_unique with 1; lia).
    change (-1 mod 2 ^ 32) with (Z.ones 32).
    set (x := 2 * v + 2 ^ 32).
    assert (Hx : 0 <= x < 2 ^ 32) by lia.
    assert (E : Z.lxor x (Z.ones 32) = Z.ones 32 - x).
    { rewrite Z.sub_nocarry_ldiff.
      - apply Z.bits_inj'. intros n Hn. rewrite Z.lxor_spec, Z.ldiff_spec.
        destruct (Z_lt_dec n 32).
        + rewrite Z.ones_spec_low by lia. destruct (Z.testbit x n); reflexivity.
        + rewrite Z.ones_spec_high by lia.
          destruct (Z.eq_dec x 0) as [->|]; [now rewrite Z.bits_0|].
          rewrite Z.bits_above_log2; auto; [lia|].
          apply Z.log2_lt_pow2; try lia. apply Z.lt_le_trans with (2 ^ 32); [lia|].
          apply Z.pow_le_mono_r; lia.
      - apply Z.bits_inj'. intros n Hn. rewrite Z.ldiff_spec, Z.bits_0.
        destruct (Z_lt_dec n 32).
        + rewrite Z.ones_spec_low by lia. apply andb_false_r.
        + destruct (Z.eq_dec x 0) as [->|]; [now rewrite Z.bits_0|].
          rewrite Z.bits_above_log2; auto; [lia|].
          apply Z.log2_lt_pow2; try lia. apply Z.lt_le_trans with (2 ^ 32); [lia|].
          apply Z.pow_le_mono_r; lia. }
    rewrite E. change (Z.ones 32) with (2 ^ 32 - 1). lia.
  - rewrite (Z.div_small v) by lia. rewrite (Z.mod_small v) by lia.
    rewrite Z.mod_small by lia. change (0 mod 2 ^ 32) with 0. rewrite Z.lxor_0_r. lia.
Qed.
Lemma zigzag_range v : - 2 ^ 31 <= v < 2 ^ 31 -> 0 <= zigzag v < 2 ^ 32.
Proof. intros Hv. rewrite zigzag_val by assumption. destruct (Z.ltb_spec v 0); lia. Qed.

Lemma land1 v : Z.land v 1 = v mod 2.
Proof. change 1 with (Z.ones 1). rewrite Z.land_ones by lia. reflexivity. Qed.

(** What the reader's un-zigzag computes on every 32-bit value. *)
Lemma unzigzag_val v : 0 <= v < 2 ^ 32 ->
  (if negb (Z.land v 1 =? 0)
   then to_signed 32 (Z.lor (Z.shiftr (2 ^ 32 - 1 - v) 1) (2 ^ 31))
   else to_signed 32 (Z.shiftr v 1)) = if v mod 2 =? 0 then v / 2 else - ((v + 1) / 2).
Proof.
  intros Hv. rewrite land1, !Z.shiftr_div_pow2 by lia. change (2 ^ 1) with 2.
  pose proof (Z.mod_pos_bound v 2 ltac:(lia)). pose proof (Z.div_mod v 2 ltac:(lia)).
  destruct (Z.eqb_spec (v mod 2) 0); cbn [negb]; unfold to_signed.
  - change (2 ^ (32 - 1)) with (2 ^ 31). destruct (Z.ltb_spec (v / 2) (2 ^ 31)); lia.
  - set (q := v / 2) in *.
    replace ((2 ^ 32 - 1 - v) / 2) with (2 ^ 31 - 1 - q) by (apply Z.div_unique with 0; lia).
    replace ((v + 1) / 2) with (q + 1) by (apply Z.div_unique with 0; lia).
    assert (EL : Z.lor (2 ^ 31 - 1 - q) (2 ^ 31) = 2 ^ 32 - 1 - q).
    { transitivity (Z.lor (2 ^ 31 - 1 - q) (Z.shiftl 1 31)); [reflexivity|].
      rewrite lor_add_disjoint by lia. lia. }
    rewrite EL.
    change (2 ^ (32 - 1)) with (2 ^ 31).
    destruct (Z.ltb_spec (2 ^ 32 - 1 - q) (2 ^ 31)); lia.
Qed.

Lemma varint32_from_bin_eq s :
  varint32_from_bin s =
  (let* (v, s') := varuint32_from_bin s in
   Ok (if negb (Z.land v 1 =? 0)
       then to_signed 32 (Z.lor (Z.shiftr (2 ^ 32 - 1 - v) 1) (2 ^ 31))
       else to_signed 32 (Z.shiftr v 1), s')).
Proof.
  unfold varint32_from_bin. destruct (varuint32_from_bin s) as [[v s']| |]; cbn [bind]; auto.
  destruct (negb _); reflexivity.
Qed.

Lemma varint32_roundtrip v rest : - 2 ^ 31 <= v < 2 ^ 31 -> bytes_ok rest ->
  varint32_from_bin (encv (zigzag v) ++ rest) = Ok (v, rest).
Proof.
  intros Hv Hr. rewrite varint32_from_bin_eq.
  rewrite varuint32_roundtrip by (auto; now apply zigzag_range). cbn [bind].
  rewrite unzigzag_val by now apply zigzag_range.
  rewrite zigzag_val by assumption. do 2 f_equal.
  destruct (Z.ltb_spec v 0).
  - replace ((-2 * v - 1) mod 2) with 1 by (apply Z.mod_unique with (- v - 1); lia).
    cbn [Z.eqb]. replace (-2 * v - 1 + 1) with (- v * 2) by lia. rewrite Z.div_mul by lia. lia.
  - replace (2 * v) with (v * 2) by lia. rewrite Z.mod_mul, Z.div_mul by lia. reflexivity.
Qed.

(** ** Writing on the concrete streams *)
Definition wlist (S : ostream) (ws : list bytes) (s : ost S) : res (ost S) := mfold (owrite S) ws s.

Lemma wlist_vector ws d : wlist vector_stream ws d = Ok (d ++ List.concat ws).
Proof.
  unfold wlist. revert d; induction ws as [|w ws IH]; intros d; cbn; [now rewrite app_nil_r|].
  change (ost vector_stream) with bytes in *. cbn in IH. rewrite IH. now rewrite app_assoc.
Qed.
Lemma wbytes_wlist S l s : wbytes S l s = wlist S (map (fun b => [b]) l) s.
Proof. reflexivity. Qed.
Lemma concat_singles (l : bytes) : List.concat (map (fun b => [b]) l) = l.
Proof. induction l; cbn; congruence. Qed.
Global Arguments encv : simpl never.
