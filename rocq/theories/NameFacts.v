(** * NameFacts: lemmas about names *)
From Verif Require Import Base Name.

(** Specification vocabulary. *)
Definition name_text_char (c : Z) : bool :=
  (c =? 46) || ((49 <=? c) && (c <=? 53)) || ((97 <=? c) && (c <=? 122)).
Definition name_text_char13 (c : Z) : bool :=
  (c =? 46) || ((49 <=? c) && (c <=? 53)) || ((97 <=? c) && (c <=? 106)).
Definition valid_name_text (s : bytes) : Prop :=
  (List.length s <= 13)%nat /\ forallb name_text_char s = true /\
  forall c, nth_error s 12 = Some c -> name_text_char13 c = true.

(** Text without its trailing dots. *)
Fixpoint trim_dots (s : bytes) : bytes :=
  match s with
  | [] => []
  | c :: s' => match trim_dots s' with
               | [] => if c =? 46 then [] else [c]
               | t => c :: t
               end
  end.

(** Digit lists: 5 bits each, 4 bits for the last one. *)
Definition NB (n : nat) : Z := match n with O => 1 | S k => 16 * 32 ^ Z.of_nat k end.
Fixpoint nvd (ds : bytes) : Z :=
  match ds with [] => 0 | d :: ds' => d * NB (List.length ds') + nvd ds' end.
Fixpoint dok (ds : bytes) : Prop :=
  match ds with
  | [] => True
  | d :: ds' => 0 <= d < (match ds' with [] => 16 | _ => 32 end) /\ dok ds'
  end.

Lemma NB_pos n : 0 < NB n.
Proof. destruct n; unfold NB; [lia|]. pose proof (Z.pow_pos_nonneg 32 (Z.of_nat n)). lia. Qed.
Lemma NB_SS n : NB (S (S n)) = 32 * NB (S n).
Proof. cbn [NB]. rewrite Nat2Z.inj_succ, Z.pow_succ_r by lia. ring. Qed.
Lemma NB_pow n : NB (S n) = 2 ^ (5 * Z.of_nat n + 4).
Proof. cbn [NB]. rewrite Z.pow_add_r, Z.pow_mul_r by lia. change (2 ^ 5) with 32. change (2 ^ 4) with 16. ring. Qed.

Lemma nvd_bound ds : dok ds -> 0 <= nvd ds < NB (List.length ds).
Proof.
  induction ds as [|d ds IH]; [cbn; lia|]. intros [Hd Hds]. specialize (IH Hds).
  cbn [nvd List.length]. destruct ds as [|e ds].
  - cbn. cbn in *. lia.
  - cbn [List.length] in *. rewrite NB_SS. pose proof (NB_pos (S (List.length ds))).
    set (B := NB (S (List.length ds))) in *. nia.
Qed.

Lemma nvd_lex a : forall b, List.length a = List.length b -> dok a -> dok b ->
  (nvd a <? nvd b) = lex_ltb a b.
Proof.
  induction a as [|x a IH]; intros [|y b] L Ha Hb; try discriminate; [reflexivity|].
  cbn [lex_ltb nvd]. injection L as L. destruct Ha as [Hx Ha], Hb as [Hy Hb].
  specialize (IH b L Ha Hb). rewrite <- IH, <- L.
  pose proof (nvd_bound a Ha). pose proof (nvd_bound b Hb) as Hb'. rewrite <- L in Hb'.
  set (B := NB (List.length a)) in *.
  destruct (Z.ltb_spec x y); cbn [orb].
  - apply Z.ltb_lt. nia.
  - destruct (Z.eqb_spec x y); cbn [andb].
    + subst. destruct (Z.ltb_spec (nvd a) (nvd b)); [apply Z.ltb_lt|apply Z.ltb_ge]; nia.
    + apply Z.ltb_ge. nia.
Qed.

(** Appending zero digits to a text of at most 13 characters. *)
Definition pad13 (s : bytes) : bytes := s ++ repeat 46 (13 - List.length s).
Lemma pad13_length s : (List.length s <= 13)%nat -> List.length (pad13 s) = 13%nat.
Proof. intros. unfold pad13. rewrite app_length, repeat_length. lia. Qed.

Definition digit := char_to_name_digit.
Global Arguments digit : simpl never.
Global Arguments name_text_char : simpl never.
Global Arguments name_text_char13 : simpl never.

Lemma digit_bound c : 0 <= digit c < 32.
Proof. unfold digit, char_to_name_digit. destruct ((97 <=? c) && (c <=? 122)) eqn:?, ((49 <=? c) && (c <=? 53)) eqn:?; lia. Qed.
Lemma digit_dot : digit 46 = 0. Proof. reflexivity. Qed.
Lemma strict_digit c x : char_to_name_digit_strict c = Some x -> x = digit c.
Proof.
  unfold digit, char_to_name_digit, char_to_name_digit_strict.
  destruct ((97 <=? c) && (c <=? 122)), ((49 <=? c) && (c <=? 53)), (c =? 46); congruence.
Qed.
Lemma strict_digit_ok c : name_text_char c = true <-> char_to_name_digit_strict c = Some (digit c).
Proof.
  unfold name_text_char, digit, char_to_name_digit, char_to_name_digit_strict.
  destruct ((97 <=? c) && (c <=? 122)) eqn:?, ((49 <=? c) && (c <=? 53)) eqn:?, (c =? 46) eqn:?; cbn; split; try congruence.
Qed.
Lemma strict_digit_no c : name_text_char c = false <-> char_to_name_digit_strict c = None.
Proof.
  unfold name_text_char, char_to_name_digit_strict.
  destruct ((97 <=? c) && (c <=? 122)) eqn:?, ((49 <=? c) && (c <=? 53)) eqn:?, (c =? 46) eqn:?; cbn; split; try congruence.
Qed.
Lemma digit13 c : name_text_char c = true -> (name_text_char13 c = true <-> digit c < 16).
Proof.
  unfold name_text_char, name_text_char13, digit, char_to_name_digit. intros H.
  destruct ((97 <=? c) && (c <=? 122)) eqn:?, ((49 <=? c) && (c <=? 53)) eqn:?; lia.
Qed.
Lemma land31 d : 0 <= d < 32 -> Z.land d 31 = d.
Proof. intros. change 31 with (Z.ones 5). rewrite Z.land_ones by lia. now apply Z.mod_small. Qed.
Lemma land15 d : Z.land d 15 = d mod 16.
Proof. change 15 with (Z.ones 4). now rewrite Z.land_ones by lia. Qed.

Lemma nvd_app a b : (0 < List.length b)%nat ->
  nvd (a ++ b) = fold_left (fun r d => r * 32 + d) a 0 * NB (List.length b) + nvd b.
Proof.
  intros Hb. revert b Hb. induction a as [|d a IH] using rev_ind; intros b Hb; [cbn; lia|].
  rewrite <- app_assoc. cbn [app]. rewrite (IH (d :: b)) by (cbn; lia).
  rewrite fold_left_app. cbn [fold_left nvd List.length].
  destruct (List.length b) as [|n] eqn:E; [lia|]. rewrite NB_SS. lia.
Qed.
Lemma nvd_zeros n : nvd (repeat 0 n) = 0.
Proof. induction n; cbn; lia. Qed.

Lemma nvd_app_zeros a n : dok (a ++ repeat 0 n) ->
  nvd (a ++ repeat 0 n) mod NB n = 0 .
Proof.
  destruct n; intros; [apply Z.mod_1_r|]. rewrite nvd_app by (rewrite repeat_length; lia).
  rewrite nvd_zeros, repeat_length, Z.add_0_r. apply Z.mod_mul. pose proof (NB_pos (S n)). lia.
Qed.

(** ** Lenient parser *)
Definition pdigits (s : bytes) : bytes := map digit s.

(** Value of the digits of [s] placed at positions [i], [i+1], ... (4 bits at 12). *)
Fixpoint pv (i : nat) (s : bytes) : Z :=
  match s with
  | [] => 0
  | c :: s' => if (i <? 12)%nat then digit c * NB (12 - i) + pv (S i) s' else digit c mod 16
  end.
Lemma pv_bound s : forall i, (i <= 12)%nat -> 0 <= pv i s < NB (13 - i).
Proof.
  induction s as [|c s IH]; intros i Hi; cbn [pv]; [pose proof (NB_pos (13 - i)); lia|].
  destruct (Nat.ltb_spec i 12).
  - specialize (IH (S i) ltac:(lia)). replace (13 - i)%nat with (S (S (11 - i))) by lia.
    replace (13 - S i)%nat with (S (11 - i)) in IH by lia. replace (12 - i)%nat with (S (11 - i)) by lia.
    rewrite NB_SS. pose proof (digit_bound c). set (B := NB (S (11 - i))) in *. nia.
  - assert (i = 12)%nat by lia. subst. cbn. pose proof (Z.mod_pos_bound (digit c) 16). lia.
Qed.

Lemma shl_digit i d : (i < 12)%nat -> 0 <= d < 32 ->
  Z.shiftl (Z.land d 31) (64 - 5 * (Z.of_nat i + 1)) mod 2 ^ 64 = d * NB (12 - i).
Proof.
  intros Hi Hd. rewrite land31 by lia. rewrite Z.shiftl_mul_pow2 by lia.
  replace (64 - 5 * (Z.of_nat i + 1)) with (5 * Z.of_nat (11 - i) + 4) by lia.
  rewrite <- NB_pow. replace (S (11 - i)) with (12 - i)%nat by lia.
  apply Z.mod_small. pose proof (NB_pos (12 - i)). split; [nia|].
  change (2 ^ 64) with (32 * (2 ^ 59)).
  assert (NB (12 - i) <= 2 ^ 59); [|nia].
  replace (12 - i)%nat with (S (11 - i)) by lia. rewrite NB_pow. apply Z.pow_le_mono_r; lia.
Qed.
Lemma lor_high acc a k : 0 <= k -> 0 <= a < 2 ^ k -> acc mod 2 ^ k = 0 -> Z.lor acc a = acc + a.
Proof.
  intros Hk Ha Hm. pose proof (Z.div_mod acc (2 ^ k) ltac:(pose proof (Z.pow_pos_nonneg 2 k); lia)) as E.
  rewrite Hm, Z.add_0_r in E. rewrite E at 1.
  rewrite Z.lor_comm, (Z.mul_comm (2 ^ k)), <- Z.shiftl_mul_pow2 by lia.
  rewrite lor_add_disjoint by lia. lia.
Qed.

Lemma NB_mod (acc : Z) n m : (m <= n)%nat -> (0 < m)%nat -> acc mod NB n = 0 -> acc mod NB m = 0.
Proof.
  intros H Hm E. destruct n, m; try lia. rewrite NB_pow in *.
  rewrite Z.mod_divide in * by (try (apply Z.pow_nonzero; lia)).
  eapply Z.divide_trans; [|exact E].
  exists (2 ^ (5 * Z.of_nat (n - m))). rewrite <- Z.pow_add_r by lia. f_equal. lia.
Qed.

Lemma lor_step i acc d : (i < 12)%nat -> 0 <= d < 32 -> acc mod NB (13 - i) = 0 ->
  Z.lor acc (d * NB (12 - i)) = acc + d * NB (12 - i) /\ (acc + d * NB (12 - i)) mod NB (13 - S i) = 0.
Proof.
  intros Hi Hd Hm. split.
  - replace (13 - i)%nat with (S (12 - i)) in Hm by lia. rewrite NB_pow in Hm.
    eapply lor_high; [|..|exact Hm]; [lia|].
    rewrite <- NB_pow. replace (12 - i)%nat with (S (11 - i)) by lia. rewrite NB_SS.
    pose proof (NB_pos (S (11 - i))). nia.
  - replace (13 - S i)%nat with (12 - i)%nat by lia.
    rewrite Z.mod_add by (pose proof (NB_pos (12 - i)); lia).
    eapply NB_mod; [| |exact Hm]; lia.
Qed.

Lemma loop_pv s : forall i acc, (i <= 12)%nat -> acc mod NB (13 - i) = 0 ->
  string_to_name_loop i s acc = acc + pv i s.
Proof.
  induction s as [|c s IH]; intros i acc Hi Hm; cbn [string_to_name_loop pv]; [lia|].
  destruct (Nat.ltb_spec i 12).
  - pose proof (digit_bound c) as Hd. rewrite shl_digit by (auto; lia).
    destruct (lor_step i acc (digit c) ltac:(lia) Hd Hm) as [E1 E2]. fold (digit c). rewrite E1.
    rewrite IH by (auto; lia). lia.
  - assert (i = 12)%nat by lia. subst. cbn in Hm. rewrite land15. fold (digit c).
    apply (lor_high acc _ 4); [lia| |exact Hm]. change (2 ^ 4) with 16. apply Z.mod_pos_bound. lia.
Qed.
Lemma string_to_name_pv s : string_to_name s = pv 0 s.
Proof. unfold string_to_name. now rewrite loop_pv by (cbn; auto; lia). Qed.
Lemma string_to_name_range s : 0 <= string_to_name s < 2 ^ 64.
Proof. rewrite string_to_name_pv. exact (pv_bound s 0 ltac:(lia)). Qed.

(** The padded digits. *)
Definition fixlast (i : nat) (s : bytes) : Prop :=
  (i + List.length s <= 13)%nat /\ forall k c, nth_error s k = Some c -> (i + k = 12)%nat -> digit c < 16.

Lemma pv_nvd s : forall i, (i <= 12)%nat -> fixlast i s ->
  pv i s = nvd (map digit s ++ repeat 0 (13 - i - List.length s)) /\
  dok (map digit s ++ repeat 0 (13 - i - List.length s)).
Proof.
  induction s as [|c s IH]; intros i Hi [HL HF].
  - cbn [map app List.length]. rewrite nvd_zeros. split; [reflexivity|].
    generalize (13 - i - 0)%nat. intros n. induction n; cbn; auto. split; auto. destruct n; cbn [repeat]; lia.
  - cbn [List.length map app pv] in *. pose proof (digit_bound c).
    destruct (Nat.ltb_spec i 12).
    + destruct (IH (S i) ltac:(lia)) as [E D].
      { split; [lia|]. intros k x Hk Hi'. apply (HF (S k) x); auto. lia. }
      replace (13 - i - S (List.length s))%nat with (13 - S i - List.length s)%nat by lia.
      cbn [nvd dok]. rewrite <- E. rewrite app_length, map_length, repeat_length.
      replace (List.length s + (13 - S i - List.length s))%nat with (12 - i)%nat by lia.
      split; [reflexivity|]. split; auto.
      destruct (map digit s ++ repeat 0 (13 - S i - List.length s)) eqn:X; auto.
      apply (f_equal (@List.length Z)) in X. rewrite app_length, map_length, repeat_length in X. cbn [List.length] in X. lia.
    + assert (i = 12)%nat by lia. subst. destruct s; [|cbn in HL; lia].
      pose proof (HF O c eq_refl eq_refl). rewrite Z.mod_small by lia.
      change (digit c = digit c * 1 + 0 /\ 0 <= digit c < 16 /\ True). lia.
Qed.

Lemma map_pad s : map digit (pad13 s) = map digit s ++ repeat 0 (13 - List.length s).
Proof.
  unfold pad13. rewrite map_app. f_equal. induction (13 - List.length s)%nat as [|n IH]; cbn [repeat map]; [|rewrite IH]; reflexivity.
Qed.

Lemma valid_fixlast s : valid_name_text s -> fixlast 0 s.
Proof.
  intros (HL & HC & H13). split; [lia|]. intros k c Hk E. cbn in E. subst k.
  rewrite forallb_forall in HC. apply digit13; auto. apply HC. eapply nth_error_In; eauto.
Qed.

Lemma name_value s : valid_name_text s ->
  string_to_name s = nvd (map digit (pad13 s)) /\ dok (map digit (pad13 s)).
Proof.
  intros H. rewrite string_to_name_pv, map_pad.
  destruct (pv_nvd s 0 ltac:(lia) (valid_fixlast s H)) as [E D].
  replace (13 - 0 - List.length s)%nat with (13 - List.length s)%nat in * by lia. auto.
Qed.

(** ** Strict parser *)
Lemma strict_loop_spec s : forall i acc, (i <= 12)%nat ->
  strict_loop i s acc =
    (if forallb name_text_char (firstn (13 - i) s) then
       match nth_error s (12 - i) with
       | Some c => if name_text_char13 c then
                     (if (List.length s <=? 13 - i)%nat then Ok (string_to_name_loop i s acc) else Err E_name_too_long)
                   else Err E_invalid_name_char13
       | None => Ok (string_to_name_loop i s acc)
       end
     else Err E_invalid_name_char).
Proof.
  induction s as [|c s IH]; intros i acc Hi.
  - cbn [strict_loop string_to_name_loop]. rewrite firstn_nil. destruct (12 - i)%nat; reflexivity.
  - cbn [strict_loop string_to_name_loop]. destruct (Nat.ltb_spec i 12).
    + replace (13 - i)%nat with (S (13 - S i)) by lia. cbn [firstn forallb].
      replace (12 - i)%nat with (S (12 - S i)) by lia. cbn [nth_error List.length].
      destruct (name_text_char c) eqn:C.
      * apply strict_digit_ok in C. rewrite C. rewrite IH by lia. cbn [andb].
        fold (digit c). reflexivity.
      * apply strict_digit_no in C. rewrite C. reflexivity.
    + assert (i = 12)%nat by lia. subst. cbn [Nat.sub firstn forallb nth_error List.length].
      destruct (name_text_char c) eqn:C.
      * pose proof C as C'. apply strict_digit_ok in C. rewrite C. cbn [andb].
        pose proof (digit13 c C') as D. rewrite !land15. pose proof (digit_bound c).
        destruct (name_text_char13 c) eqn:C13.
        -- rewrite Z.mod_small by (assert (digit c < 16) by (apply D; auto); lia).
           rewrite Z.eqb_refl. cbn. destruct s; cbn; auto.
           fold (digit c). rewrite Z.mod_small by (assert (digit c < 16) by (apply D; auto); lia). reflexivity.
        -- assert (~ digit c < 16) by (intros X; apply D in X; congruence).
           assert (digit c mod 16 <> digit c) by (pose proof (Z.mod_pos_bound (digit c) 16); lia).
           destruct (Z.eqb_spec (digit c) (digit c mod 16)); [congruence|]. reflexivity.
      * apply strict_digit_no in C. rewrite C. reflexivity.
Qed.

Lemma strict_spec s :
  try_string_to_name_strict s =
    (if forallb name_text_char (firstn 13 s) then
       match nth_error s 12 with
       | Some c => if name_text_char13 c then
                     (if (List.length s <=? 13)%nat then Ok (string_to_name s) else Err E_name_too_long)
                   else Err E_invalid_name_char13
       | None => Ok (string_to_name s)
       end
     else Err E_invalid_name_char).
Proof. apply strict_loop_spec. lia. Qed.

Lemma strict_accepts s v : try_string_to_name_strict s = Ok v <-> valid_name_text s /\ v = string_to_name s.
Proof.
  rewrite strict_spec. unfold valid_name_text.
  destruct (nth_error s 12) eqn:N.
  - assert (Hl : (12 < List.length s)%nat) by (apply nth_error_Some; congruence).
    split.
    + destruct (forallb name_text_char (firstn 13 s)) eqn:F; [|discriminate].
      destruct (name_text_char13 z) eqn:T; [|discriminate].
      destruct (Nat.leb_spec (List.length s) 13); [|discriminate].
      intros E. injection E as <-. repeat split; auto; try congruence.
      now rewrite firstn_all2 in F by lia.
    + intros [(L & F & T) ->]. rewrite firstn_all2 by lia. rewrite F, (T z eq_refl).
      apply Nat.leb_le in L. now rewrite L.
  - assert (Hl : (List.length s <= 12)%nat) by (apply nth_error_None; auto).
    rewrite firstn_all2 by lia. split.
    + destruct (forallb name_text_char s) eqn:F; [|discriminate]. intros E. injection E as <-.
      repeat split; auto; try lia. congruence.
    + intros [(L & F & T) ->]. now rewrite F.
Qed.

(** ** Printing *)
Lemma name_char_table : forallb (fun d => (digit (name_char d) =? d) && name_text_char (name_char d) && is_byteb (name_char d)
   && (negb (name_char d =? 46) || (d =? 0))) (map Z.of_nat (seq 0 32)) = true.
Proof. reflexivity. Qed.
Lemma name_char_ok d : 0 <= d < 32 ->
  digit (name_char d) = d /\ name_text_char (name_char d) = true /\ is_byte (name_char d) /\ (name_char d = 46 -> d = 0).
Proof.
  intros Hd. pose proof name_char_table as T. rewrite forallb_forall in T.
  specialize (T d). rewrite !andb_true_iff in T.
  destruct T as [[[T1 T2] T3] T4].
  - apply in_map_iff. exists (Z.to_nat d). split; [lia|]. apply in_seq. lia.
  - repeat split; auto; try (now apply Z.eqb_eq); try (apply is_byteb_spec in T3; apply T3).
    intros E. rewrite E in T4. cbn in T4. lia.
Qed.

Definition full_text (v : Z) : bytes := name_chars 12 (Z.shiftr v 4) [name_char (Z.land v 15)].

Lemma name_chars_spec n : forall t acc, 0 <= t -> (0 < List.length acc)%nat ->
  dok (map digit acc) -> forallb name_text_char acc = true -> bytes_ok acc ->
  let r := name_chars n t acc in
  nvd (map digit r) = (t mod 32 ^ Z.of_nat n) * NB (List.length acc) + nvd (map digit acc) /\
  dok (map digit r) /\ forallb name_text_char r = true /\ List.length r = (n + List.length acc)%nat /\ bytes_ok r.
Proof.
  induction n as [|n IH]; intros t acc Ht Hl Hd Hc Hb; cbn [name_chars].
  - cbn. rewrite Z.mod_1_r. repeat split; auto.
  - cbn zeta in *. assert (Hm : 0 <= Z.land t 31 < 32).
    { change 31 with (Z.ones 5). rewrite Z.land_ones by lia. apply Z.mod_pos_bound. lia. }
    destruct (name_char_ok _ Hm) as (D & C & B & _).
    destruct (IH (Z.shiftr t 5) (name_char (Z.land t 31) :: acc)) as (E1 & E2 & E3 & E4 & E5).
    + rewrite Z.shiftr_div_pow2 by lia. apply Z.div_pos; lia.
    + cbn; lia.
    + cbn [map dok]. split; auto. destruct acc; [cbn in Hl; lia|]. cbn [map]. rewrite D. lia.
    + cbn [forallb]. now rewrite C, Hc.
    + apply bytes_ok_cons. auto.
    + repeat split; auto; [|rewrite E4; cbn; lia].
      rewrite E1. cbn [map nvd List.length]. rewrite D, map_length.
      destruct (List.length acc) as [|m]; [lia|]. rewrite NB_SS, Nat2Z.inj_succ, Z.pow_succ_r by lia.
      rewrite (Z.rem_mul_r t 32) by lia. rewrite Z.shiftr_div_pow2 by lia. change (2 ^ 5) with 32.
      change 31 with (Z.ones 5). rewrite Z.land_ones by lia. change (2 ^ 5) with 32. ring.
Qed.

Lemma full_text_spec v : 0 <= v < 2 ^ 64 ->
  nvd (map digit (full_text v)) = v /\ dok (map digit (full_text v)) /\
  forallb name_text_char (full_text v) = true /\ List.length (full_text v) = 13%nat /\ bytes_ok (full_text v).
Proof.
  intros Hv. unfold full_text.
  assert (Hm : 0 <= Z.land v 15 < 16) by (rewrite land15; apply Z.mod_pos_bound; lia).
  destruct (name_char_ok (Z.land v 15) ltac:(lia)) as (D & C & B & _).
  destruct (name_chars_spec 12 (Z.shiftr v 4) [name_char (Z.land v 15)]) as (E1 & E2 & E3 & E4 & E5).
  - rewrite Z.shiftr_div_pow2 by lia. apply Z.div_pos; lia.
  - cbn; lia.
  - cbn [map dok]. rewrite D. auto.
  - cbn [forallb]. now rewrite C.
  - repeat constructor; apply B.
  - cbv zeta in *. split; [|split; [|split; [|split]]]; auto. rewrite E1. cbn [map nvd List.length NB].
    rewrite D, land15, Z.shiftr_div_pow2 by lia. change (2 ^ 4) with 16.
    change (32 ^ Z.of_nat 12) with (2 ^ 60). rewrite Z.mod_small.
    + pose proof (Z.div_mod v 16). cbn. lia.
    + split; [apply Z.div_pos; lia|apply Z.div_lt_upper_bound; lia].
Qed.

Lemma name_to_string_trim v : name_to_string v = trim_dots (full_text v).
Proof.
  unfold name_to_string. fold (full_text v). generalize (full_text v). intros s.
  induction s as [|c s IH]; [reflexivity|]. cbn [find_last_not_of trim_dots].
  rewrite <- IH. destruct (find_last_not_of 46 s) eqn:E.
  - cbn [firstn]. destruct s; [discriminate|]. reflexivity.
  - cbn [firstn]. destruct (c =? 46); reflexivity.
Qed.

Lemma trim_pad s : exists k, s = trim_dots s ++ repeat 46 k.
Proof.
  induction s as [|c s [k IH]]; [exists O; reflexivity|]. cbn [trim_dots].
  destruct (trim_dots s) eqn:E.
  - destruct (Z.eqb_spec c 46).
    + exists (S k). subst c. cbn in *. congruence.
    + exists k. cbn in *. congruence.
  - exists k. cbn in *. congruence.
Qed.
Lemma trim_length s : (List.length (trim_dots s) <= List.length s)%nat.
Proof. destruct (trim_pad s) as [k E]. rewrite E at 2. rewrite app_length. lia. Qed.
Lemma trim_forall (P : Z -> bool) s : forallb P s = true -> forallb P (trim_dots s) = true.
Proof. destruct (trim_pad s) as [k E]. rewrite E at 1. rewrite forallb_app, andb_true_iff. tauto. Qed.
Lemma pad_trim s : List.length s = 13%nat -> pad13 (trim_dots s) = s.
Proof.
  intros L. unfold pad13. destruct (trim_pad s) as [k E].
  rewrite E at 3. f_equal. f_equal.
  apply (f_equal (@List.length Z)) in E. rewrite app_length, repeat_length in E. lia.
Qed.
Lemma trim_last s : trim_dots s <> [] -> last (trim_dots s) 0 <> 46.
Proof.
  induction s as [|c s IH]; [cbn; congruence|]. cbn [trim_dots].
  destruct (trim_dots s) as [|z l] eqn:E.
  - destruct (Z.eqb_spec c 46); cbn; congruence.
  - intros _. change (last (c :: z :: l) 0) with (last (z :: l) 0). apply IH. congruence.
Qed.
Lemma trim_repeat k : trim_dots (repeat 46 k) = [].
Proof. induction k; cbn; auto. now rewrite IHk. Qed.
Lemma trim_app_dots s k : trim_dots (s ++ repeat 46 k) = trim_dots s.
Proof. induction s as [|c s IH]; cbn; [apply trim_repeat|]. now rewrite IH. Qed.
Lemma trim_idem s : trim_dots (trim_dots s) = trim_dots s.
Proof. destruct (trim_pad s) as [k E]. rewrite E at 2. now rewrite trim_app_dots. Qed.

Lemma char13_of s : List.length s = 13%nat -> forallb name_text_char s = true -> dok (map digit s) ->
  forall c, nth_error s 12 = Some c -> name_text_char13 c = true.
Proof.
  intros L F D c N. do 13 (destruct s as [|? s]; [discriminate|]). destruct s; [|discriminate].
  cbn in N. injection N as <-.
  rewrite forallb_forall in F. apply digit13; [apply F; cbn; tauto|]. cbn in D. tauto.
Qed.
Lemma nth_error_trim s k c : nth_error (trim_dots s) k = Some c -> nth_error s k = Some c.
Proof.
  destruct (trim_pad s) as [j E]. rewrite E at 2. intros H. rewrite nth_error_app1; auto.
  apply nth_error_Some. congruence.
Qed.

Lemma name_text_valid v : 0 <= v < 2 ^ 64 -> valid_name_text (name_to_string v).
Proof.
  intros Hv. destruct (full_text_spec v Hv) as (E1 & E2 & E3 & E4 & _).
  rewrite name_to_string_trim. split; [|split].
  - rewrite <- E4. apply trim_length.
  - now apply trim_forall.
  - intros c Hc. eapply char13_of; eauto. now apply nth_error_trim.
Qed.

Lemma name_roundtrip v : 0 <= v < 2 ^ 64 -> string_to_name (name_to_string v) = v.
Proof.
  intros Hv. destruct (name_value _ (name_text_valid v Hv)) as [E _]. rewrite E.
  destruct (full_text_spec v Hv) as (E1 & E2 & E3 & E4 & _).
  rewrite name_to_string_trim, pad_trim by auto. exact E1.
Qed.
Lemma name_strict_roundtrip v : 0 <= v < 2 ^ 64 -> try_string_to_name_strict (name_to_string v) = Ok v.
Proof.
  intros Hv. apply strict_accepts. split; [now apply name_text_valid|]. symmetry. now apply name_roundtrip.
Qed.
Lemma name_to_string_ok v : 0 <= v < 2 ^ 64 -> bytes_ok (name_to_string v).
Proof.
  intros Hv. destruct (full_text_spec v Hv) as (_ & _ & _ & _ & B). rewrite name_to_string_trim.
  destruct (trim_pad (full_text v)) as [k E]. rewrite E in B. apply bytes_ok_app in B. tauto.
Qed.

(** Injectivity of digits on name texts. *)
Lemma digit_inj a b : name_text_char a = true -> name_text_char b = true -> digit a = digit b -> a = b.
Proof.
  unfold name_text_char, digit, char_to_name_digit. intros.
  destruct ((97 <=? a) && (a <=? 122)) eqn:?, ((49 <=? a) && (a <=? 53)) eqn:?,
    ((97 <=? b) && (b <=? 122)) eqn:?, ((49 <=? b) && (b <=? 53)) eqn:?; lia.
Qed.
Lemma digit_lt a b : name_text_char a = true -> name_text_char b = true -> (digit a <? digit b) = (a <? b).
Proof.
  unfold name_text_char, digit, char_to_name_digit. intros.
  destruct ((97 <=? a) && (a <=? 122)) eqn:?, ((49 <=? a) && (a <=? 53)) eqn:?,
    ((97 <=? b) && (b <=? 122)) eqn:?, ((49 <=? b) && (b <=? 53)) eqn:?; lia.
Qed.
Lemma lex_digits a : forall b, forallb name_text_char a = true -> forallb name_text_char b = true ->
  lex_ltb (map digit a) (map digit b) = lex_ltb a b.
Proof.
  induction a as [|x a IH]; intros [|y b]; cbn [map lex_ltb forallb]; intros Ha Hb; auto.
  apply andb_true_iff in Ha, Hb. destruct Ha, Hb. rewrite digit_lt, IH by auto. f_equal. f_equal.
  destruct (Z.eqb_spec x y); [subst; apply Z.eqb_refl|].
  apply Z.eqb_neq. intros E. apply digit_inj in E; auto.
Qed.
Lemma map_digit_inj a : forall b, forallb name_text_char a = true -> forallb name_text_char b = true ->
  map digit a = map digit b -> a = b.
Proof.
  induction a as [|x a IH]; intros [|y b]; cbn [map forallb]; intros Ha Hb E; try discriminate; auto.
  apply andb_true_iff in Ha, Hb. destruct Ha, Hb. injection E as E1 E2.
  f_equal; auto. now apply digit_inj.
Qed.
Lemma nvd_inj a b : List.length a = List.length b -> dok a -> dok b -> nvd a = nvd b -> a = b.
Proof.
  intros L Ha Hb E. assert (X : lex_ltb a b = false) by (rewrite <- nvd_lex by auto; lia).
  assert (Y : lex_ltb b a = false) by (rewrite <- nvd_lex by auto; lia).
  clear E Ha Hb. revert b L X Y. induction a as [|x a IH]; intros [|y b] L X Y; try discriminate; auto.
  cbn in *. apply orb_false_iff in X, Y. destruct X as [X1 X2], Y as [Y1 Y2].
  assert (x = y) by lia. subst. rewrite Z.eqb_refl in *. f_equal. apply IH; auto.
Qed.

Lemma name_print_parse s : valid_name_text s -> name_to_string (string_to_name s) = trim_dots s.
Proof.
  intros H. destruct (name_value s H) as [E D].
  pose proof (string_to_name_range s) as R. destruct (full_text_spec _ R) as (F1 & F2 & F3 & F4 & _).
  destruct H as (HL & HC & H13).
  assert (X : full_text (string_to_name s) = pad13 s).
  { apply map_digit_inj; auto.
    - unfold pad13. rewrite forallb_app, HC. cbn [andb]. generalize (13 - List.length s)%nat. intros n. induction n as [|n IH]; [reflexivity|exact IH].
    - apply nvd_inj; auto.
      + rewrite !map_length, F4. now rewrite pad13_length.
      + congruence. }
  rewrite name_to_string_trim, X. unfold pad13. apply trim_app_dots.
Qed.

(** ** Order *)
Lemma lex_trim s : forall t, List.length s = List.length t ->
  forallb name_text_char s = true -> forallb name_text_char t = true ->
  lex_ltb (trim_dots s) (trim_dots t) = lex_ltb s t.
Proof.
  assert (P : forall t k, forallb name_text_char t = true ->
     lex_ltb (repeat 46 k) t = true -> List.length t = k -> trim_dots t <> []).
  { induction t as [|c t IH]; intros [|k] F H L; try discriminate. cbn in *.
    destruct (trim_dots t) eqn:E; [|congruence].
    apply andb_true_iff in F. destruct F as [Fc F].
    destruct (Z.eqb_spec c 46); [|congruence]. subst. cbn in H.
    intros _. apply (IH k F H); auto. }
  induction s as [|x s IH]; intros [|y t] L Fs Ft; try discriminate; auto.
  cbn [trim_dots lex_ltb]. injection L as L. cbn in Fs, Ft. apply andb_true_iff in Fs, Ft.
  destruct Fs as [Fx Fs], Ft as [Fy Ft]. specialize (IH t L Fs Ft).
  assert (Hx : 46 <= x) by (unfold name_text_char in Fx; lia).
  assert (Hy : 46 <= y) by (unfold name_text_char in Fy; lia).
  destruct (trim_dots s) as [|s0 s'] eqn:Es, (trim_dots t) as [|t0 t'] eqn:Et; cbn in IH.
  - rewrite <- IH. destruct (Z.eqb_spec x 46), (Z.eqb_spec y 46); cbn [lex_ltb]; lia.
  - rewrite <- IH. destruct (Z.eqb_spec x 46); cbn [lex_ltb]; lia.
  - rewrite <- IH. destruct (Z.eqb_spec y 46); cbn [lex_ltb]; lia.
  - rewrite <- IH. reflexivity.
Qed.

Lemma name_order a b : 0 <= a < 2 ^ 64 -> 0 <= b < 2 ^ 64 ->
  lex_ltb (name_to_string a) (name_to_string b) = (a <? b).
Proof.
  intros Ha Hb. destruct (full_text_spec a Ha) as (A1 & A2 & A3 & A4 & _).
  destruct (full_text_spec b Hb) as (B1 & B2 & B3 & B4 & _).
  rewrite !name_to_string_trim, lex_trim by (auto; congruence).
  rewrite <- lex_digits by auto. rewrite <- nvd_lex by (rewrite ?map_length; auto; congruence).
  congruence.
Qed.

(** ** Literals *)
Lemma literal_impl_spec rest : forall n c acc, (n <= 12)%nat -> (n + S (List.length rest) <= 13)%nat ->
  literal_impl n acc c rest = match strict_loop n (c :: rest) acc with Ok v => Some v | _ => None end.
Proof.
  induction rest as [|c' rest IH]; intros n c acc Hn Hl; cbn [literal_impl strict_loop].
  - destruct (char_to_name_digit_strict c) as [x|] eqn:E; [|now destruct (Nat.ltb_spec n 12)].
    apply strict_digit in E. pose proof (digit_bound c).
    destruct (Nat.ltb_spec n 12).
    + destruct (Nat.eqb_spec n 12); [lia|]. cbn [andb]. now rewrite Z.add_0_r.
    + assert (n = 12)%nat by lia. subst n. cbn [Nat.eqb andb]. rewrite (Z.eqb_sym (Z.land x 15)).
      destruct (Z.eqb_spec x (Z.land x 15)); cbn [negb]; auto.
      change (64 + 1 - 5 * (Z.of_nat 12 + 1)) with 0. rewrite Z.shiftl_0_r.
      rewrite land31 by lia. now rewrite Z.mod_small by lia.
  - cbn [List.length] in Hl. destruct (char_to_name_digit_strict c) as [x|] eqn:E; [|now destruct (Nat.ltb_spec n 12)].
    destruct (Nat.ltb_spec n 12); [|lia]. destruct (Nat.eqb_spec n 12); [lia|]. cbn [andb].
    rewrite IH by lia. reflexivity.
Qed.
Lemma name_literal_spec s :
  name_literal s = match try_string_to_name_strict s with Ok v => Some v | _ => None end.
Proof.
  unfold name_literal. destruct (Nat.leb_spec (List.length s) 13).
  - destruct s; [reflexivity|]. apply literal_impl_spec; cbn in *; lia.
  - destruct (try_string_to_name_strict s) eqn:E; auto. apply strict_accepts in E. destruct E as [[? _] _]. lia.
Qed.

(** ** Hash *)
Lemma u64_range z : 0 <= u64 z < 2 ^ 64.
Proof. unfold u64. apply Z.mod_pos_bound. lia. Qed.
Lemma shift_mix_range v : 0 <= v < 2 ^ 64 -> 0 <= shift_mix v < 2 ^ 64.
Proof.
  intros Hv. unfold shift_mix.
  assert (Hs : 0 <= Z.shiftr v 47 < 2 ^ 64).
  { rewrite Z.shiftr_div_pow2 by lia. split; [apply Z.div_pos; lia|]. apply Z.div_lt_upper_bound; lia. }
  split; [apply Z.lxor_nonneg; lia|].
  destruct (Z.eq_dec (Z.lxor v (Z.shiftr v 47)) 0) as [->|N]; [lia|].
  assert (0 <= Z.lxor v (Z.shiftr v 47)) by (apply Z.lxor_nonneg; lia).
  apply Z.log2_lt_pow2; [lia|].
  eapply Z.le_lt_trans; [apply Z.log2_lxor; lia|]. apply Z.max_lub_lt.
  - destruct (Z.eq_dec v 0) as [->|]; [cbn; lia|]. apply Z.log2_lt_pow2; lia.
  - destruct (Z.eq_dec (Z.shiftr v 47) 0) as [->|]; [cbn; lia|]. apply Z.log2_lt_pow2; lia.
Qed.
Lemma murmur_range s : 0 <= murmur64 s < 2 ^ 64.
Proof.
  unfold murmur64. destruct (murmur_blocks _ _ _). apply shift_mix_range. apply u64_range.
Qed.
Lemma hash_name_range s : 0 <= hash_name s < 2 ^ 64.
Proof.
  unfold hash_name. destruct (try_string_to_name_strict s) eqn:E; try apply murmur_range.
  apply strict_accepts in E. destruct E as [_ ->]. apply string_to_name_range.
Qed.
