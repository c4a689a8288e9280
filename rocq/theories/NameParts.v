(** * NameParts: length, prefix and suffix of names *)
From Verif Require Import Base Name NameFacts.

Lemma land_ones31 x : Z.land x 31 = x mod 32.
Proof. change 31 with (Z.ones 5). now rewrite Z.land_ones by lia. Qed.

(** Bit offset of the digit which has [m] digits after it. *)
Definition offs (m : nat) : Z := match m with O => 0 | S k => 5 * Z.of_nat k + 4 end.
Lemma NB_offs m : NB m = 2 ^ offs m.
Proof. destruct m; [reflexivity|]. unfold offs. apply NB_pow. Qed.
Lemma offs_nonneg m : 0 <= offs m.
Proof. destruct m; unfold offs; lia. Qed.

Lemma dok_app a b : dok (a ++ b) -> dok b.
Proof. induction a; cbn; auto. intros [_ H]; auto. Qed.
Lemma dok_pre a d b : dok (a ++ d :: b) -> Forall (fun x => 0 <= x < 32) a.
Proof.
  induction a as [|x a IH]; cbn; [constructor|]. intros [H1 H2]. constructor; auto.
  destruct (a ++ d :: b); lia.
Qed.

Lemma extract a d b : dok (a ++ d :: b) ->
  Z.shiftr (nvd (a ++ d :: b)) (offs (List.length b)) = fold_left (fun r d => r * 32 + d) a 0 * (match b with [] => 16 | _ => 32 end) + d /\
  Z.land (Z.shiftr (nvd (a ++ d :: b)) (offs (List.length b))) (match b with [] => 15 | _ => 31 end) = d.
Proof.
  intros D. pose proof (dok_app _ _ D) as D'.
  assert (E : Z.shiftr (nvd (a ++ d :: b)) (offs (List.length b)) =
    fold_left (fun r d => r * 32 + d) a 0 * (match b with [] => 16 | _ => 32 end) + d).
  { rewrite Z.shiftr_div_pow2 by apply offs_nonneg. rewrite <- NB_offs.
    rewrite nvd_app by (cbn; lia). cbn [nvd List.length].
    destruct D' as [Hd Db]. pose proof (nvd_bound b Db).
    replace (NB (S (List.length b))) with ((match b with [] => 16 | _ => 32 end) * NB (List.length b)).
    - symmetry. apply Z.div_unique_pos with (nvd b); [lia|]. ring.
    - destruct b; [reflexivity|]. cbn [List.length]. now rewrite NB_SS. }
  split; [exact E|]. rewrite E. destruct D' as [Hd _].
  destruct b.
  - rewrite land15, Z.add_comm, Z.mod_add by lia. apply Z.mod_small. lia.
  - rewrite land_ones31, Z.add_comm, Z.mod_add by lia. apply Z.mod_small. lia.
Qed.

(** ** suffix *)
(** The scan of [name_suffix] over all thirteen digits. *)
Fixpoint sfx (ds : bytes) (rem : Z) (st : Z * Z) : Z * Z :=
  match ds with
  | [] => st
  | d :: ds' => sfx ds' (rem - 5) (if d =? 0 then (rem, snd st) else (fst st, fst st))
  end.
Lemma sfx_app a b rem st : sfx (a ++ b) rem st = sfx b (rem - 5 * Z.of_nat (List.length a)) (sfx a rem st).
Proof.
  revert rem st. induction a as [|d a IH]; intros rem st; cbn [app sfx List.length].
  - f_equal; cbn; lia.
  - rewrite IH. f_equal. lia.
Qed.
Lemma sfx_zeros n : forall rem st, snd (sfx (repeat 0 n) rem st) = snd st.
Proof. induction n; intros; cbn; auto. now rewrite IHn. Qed.
Lemma sfx_nonzero b : forall rem t l, Forall (fun d => d <> 0) b -> b <> [] -> sfx b rem (t, l) = (t, t).
Proof.
  induction b as [|d b IH]; intros rem t l F N; [congruence|]. inversion F; subst. cbn [sfx].
  destruct (Z.eqb_spec d 0); [congruence|]. cbn [fst snd].
  destruct b; [reflexivity|]. apply IH; auto. discriminate.
Qed.

Lemma suffix_loop_spec v a : forall b t l, dok (a ++ b) -> v = nvd (a ++ b) -> List.length (a ++ b) = 13%nat -> (0 < List.length b)%nat ->
  name_suffix_loop (List.length b - 1) v (5 * Z.of_nat (List.length b) - 6) t l =
  sfx (removelast b) (5 * Z.of_nat (List.length b) - 6) (t, l).
Proof.
  intros b. revert a. induction b as [|d b IH]; intros a t l D E L P; [cbn in P; lia|].
  destruct b as [|d' b]; [reflexivity|].
  replace (List.length (d :: d' :: b) - 1)%nat with (S (List.length (d' :: b) - 1)) by (cbn; lia).
  cbn [name_suffix_loop]. change (removelast (d :: d' :: b)) with (d :: removelast (d' :: b)). cbn [sfx].
  destruct (extract a d (d' :: b) D) as [_ X].
  replace (5 * Z.of_nat (List.length (d :: d' :: b)) - 6) with (offs (List.length (d' :: b))) by (unfold offs; cbn [List.length]; lia).
  rewrite E, X.
  specialize (IH (a ++ [d])). rewrite <- !app_assoc in IH. cbn [app] in IH.
  replace (offs (List.length (d' :: b)) - 5) with (5 * Z.of_nat (List.length (d' :: b)) - 6) by (unfold offs; cbn [List.length]; lia).
  destruct (d =? 0); rewrite <- E, (IH _ _ D E L) by (cbn; lia); reflexivity.
Qed.

Lemma removelast_app_last (A : Type) (b : list A) d : b <> [] -> b = removelast b ++ [last b d].
Proof. apply app_removelast_last. Qed.

Lemma suffix_scan v ds : dok ds -> v = nvd ds -> List.length ds = 13%nat ->
  exists tmp last0, name_suffix_loop 12 v 59 0 0 = (tmp, last0) /\
    (if Z.land v 15 =? 0 then last0 else tmp) = snd (sfx ds 59 (0, 0)).
Proof.
  intros D E L. pose proof (suffix_loop_spec v [] ds 0 0 D E L ltac:(lia)) as H.
  rewrite L in H. cbn [Nat.sub] in H. change (5 * Z.of_nat 13 - 6) with 59 in H.
  rewrite H. destruct (sfx (removelast ds) 59 (0, 0)) as [tmp last0] eqn:S. exists tmp, last0. split; [reflexivity|].
  assert (N : ds <> []) by (intros ->; discriminate).
  rewrite (app_removelast_last 0 N), sfx_app, S. cbn [sfx].
  rewrite E. rewrite (app_removelast_last 0 N) at 1.
  rewrite (app_removelast_last 0 N) in D. destruct (extract _ _ _ D) as [_ X]. cbn [List.length offs] in X.
  rewrite Z.shiftr_0_r in X. rewrite X. destruct (last ds 0 =? 0); reflexivity.
Qed.

Lemma suffix_value v a e : dok (a ++ 0 :: e) -> v = nvd (a ++ 0 :: e) -> List.length (a ++ 0 :: e) = 13%nat -> e <> [] ->
  let last := 59 - 5 * Z.of_nat (List.length a) in
  (Z.shiftl (Z.land v (Z.shiftl 1 last - 16)) (64 - last) mod 2 ^ 64 + Z.shiftl (Z.land v 15) (64 - last - 1) mod 2 ^ 64) mod 2 ^ 64
  = nvd (e ++ repeat 0 (13 - List.length e)).
Proof.
  intros D E L N. cbv zeta.
  assert (Lm : (1 <= List.length e <= 12)%nat).
  { rewrite app_length in L. cbn in L. destruct e; [congruence|]. cbn in *. lia. }
  assert (La : List.length a = (12 - List.length e)%nat) by (rewrite app_length in L; cbn in L; lia).
  rewrite La.
  set (m := List.length e) in *.
  replace (59 - 5 * Z.of_nat (12 - m)) with (offs m) by (destruct m; unfold offs; lia).
  assert (De : dok e) by (apply (dok_app (a ++ [0])); rewrite <- app_assoc; exact D).
  pose proof (nvd_bound e De) as Be. fold m in Be.
  assert (Vm : v mod 2 ^ offs m = nvd e).
  { rewrite <- NB_offs, E. change (a ++ 0 :: e) with (a ++ [0] ++ e). rewrite app_assoc, nvd_app by lia.
    fold m. rewrite Z.add_comm, Z.mod_add by (pose proof (NB_pos m); lia). apply Z.mod_small. lia. }
  assert (Ho : 4 <= offs m <= 59) by (destruct m; unfold offs; lia).
  set (o := offs m) in *.
  (* split e *)
  rewrite (app_removelast_last 0 N) in Vm |- *. set (e' := removelast e) in *. set (l := last e 0) in *.
  assert (Le : List.length e = S (List.length e')) by (rewrite (app_removelast_last 0 N) at 1; rewrite app_length; cbn; fold e'; lia).
  rewrite nvd_app in Vm by (cbn; lia). cbn [List.length nvd NB] in Vm.
  change (16 * 32 ^ Z.of_nat 0) with 16 in Vm. rewrite Z.mul_1_r, Z.add_0_r in Vm.
  set (h := fold_left (fun r d => r * 32 + d) e' 0) in *.
  assert (Hl : 0 <= l < 16).
  { rewrite (app_removelast_last 0 N) in De. apply dok_app in De. cbn in De. tauto. }
  assert (B2 : h * 16 + l < 2 ^ o).
  { rewrite <- Vm. apply Z.mod_pos_bound. apply Z.pow_pos_nonneg; lia. }
  assert (Hh : 0 <= h) by (pose proof (Z.mod_pos_bound v (2 ^ o) ltac:(apply Z.pow_pos_nonneg; lia)); lia).
  assert (M16 : v mod 16 = l).
  { replace (v mod 16) with ((v mod 2 ^ o) mod 16).
    - rewrite Vm, Z.add_comm, Z.mod_add by lia. apply Z.mod_small. lia.
    - symmetry. apply Znumtheory.Zmod_div_mod; [lia|apply Z.pow_pos_nonneg; lia|].
      exists (2 ^ (o - 4)). change 16 with (2 ^ 4). rewrite <- Z.pow_add_r by lia. f_equal. lia. }
  rewrite land15, M16.
  replace (Z.land v (Z.shiftl 1 o - 16)) with (h * 16).
  2:{ replace (Z.shiftl 1 o - 16) with (Z.shiftl (Z.ones (o - 4)) 4).
      - rewrite <- (Z.shiftr_0_r v) at 1. apply Z.bits_inj'. intros n Hn.
        replace (h * 16) with (Z.shiftl h 4) by (rewrite Z.shiftl_mul_pow2 by lia; reflexivity).
        rewrite Z.land_spec, !Z.shiftl_spec by lia. rewrite Z.shiftr_0_r.
        destruct (Z_lt_dec n 4).
        + rewrite (Z.testbit_neg_r h), (Z.testbit_neg_r (Z.ones (o - 4))) by lia. now rewrite andb_false_r.
        + assert (Hq : h = Z.shiftr v 4 mod 2 ^ (o - 4)).
          { rewrite Z.shiftr_div_pow2 by lia. change (2 ^ 4) with 16.
            assert (P : 2 ^ o = 16 * 2 ^ (o - 4)) by (change 16 with (2 ^ 4); rewrite <- Z.pow_add_r by lia; f_equal; lia).
            pose proof (Z.pow_pos_nonneg 2 (o - 4) ltac:(lia) ltac:(lia)).
            rewrite P, Z.rem_mul_r in Vm by lia. lia. }
          rewrite Hq at 1. rewrite <- Z.land_ones by lia. rewrite Z.land_spec, Z.shiftr_spec by lia.
          replace (n - 4 + 4) with n by lia. reflexivity.
      - rewrite Z.shiftl_mul_pow2, Z.ones_equiv, Z.shiftl_mul_pow2 by lia.
        rewrite Z.mul_1_l. replace (2 ^ o) with (2 ^ (o - 4) * 2 ^ 4) by (rewrite <- Z.pow_add_r by lia; f_equal; lia).
        change (2 ^ 4) with 16. lia. }
  rewrite !Z.shiftl_mul_pow2 by lia.
  rewrite nvd_app by (rewrite repeat_length; lia). rewrite nvd_zeros, repeat_length, Z.add_0_r.
  rewrite fold_left_app. cbn [fold_left]. fold h.
  assert (NBe : NB (13 - m) = 2 ^ (63 - o)).
  { replace (13 - m)%nat with (S (12 - m)) by lia. rewrite NB_pow. f_equal.
    unfold o. destruct m; unfold offs; lia. }
  rewrite NBe. replace (64 - o) with (1 + (63 - o)) by lia. rewrite Z.pow_add_r by lia.
  replace (1 + (63 - o) - 1) with (63 - o) by lia. change (2 ^ 1) with 2.
  assert (P64 : 2 ^ o * (2 * 2 ^ (63 - o)) = 2 ^ 64).
  { rewrite Z.mul_assoc, (Z.mul_comm (2 ^ o)), <- Z.mul_assoc. rewrite <- Z.pow_add_r by lia.
    replace (o + (63 - o)) with 63 by lia. reflexivity. }
  pose proof (Z.pow_pos_nonneg 2 (63 - o) ltac:(lia) ltac:(lia)).
  set (q := 2 ^ (63 - o)) in *.
  rewrite (Z.mod_small (h * 16 * (2 * q))) by nia.
  rewrite (Z.mod_small (l * q)) by nia.
  rewrite Z.mod_small by nia. ring.
Qed.

(** ** Digits and text *)
Lemma full_text_split v p q : 0 <= v < 2 ^ 64 -> name_to_string v = p ++ 46 :: q ->
  exists k, full_text v = p ++ 46 :: q ++ repeat 46 k.
Proof.
  intros Hv E. rewrite name_to_string_trim in E. destruct (trim_pad (full_text v)) as [k T].
  exists k. rewrite T, E, <- app_assoc. reflexivity.
Qed.
Lemma digit_zero c : name_text_char c = true -> digit c = 0 -> c = 46.
Proof. intros H E. apply digit_inj; auto. Qed.
Lemma digits_nonzero q : forallb name_text_char q = true -> ~ In 46 q -> Forall (fun d => d <> 0) (map digit q).
Proof.
  induction q as [|c q IH]; cbn; intros F N; constructor.
  - intros E. apply andb_true_iff in F. destruct F. apply digit_zero in E; auto.
  - apply andb_true_iff in F. apply IH; tauto.
Qed.
Lemma map_digit_dots k : map digit (repeat 46 k) = repeat 0 k.
Proof. induction k; cbn; [reflexivity|]. now rewrite IHk. Qed.

Lemma valid_sub v p q : 0 <= v < 2 ^ 64 -> name_to_string v = p ++ 46 :: q -> valid_name_text p /\ valid_name_text q /\ q <> [] /\ trim_dots q = q.
Proof.
  intros Hv E. pose proof (name_text_valid v Hv) as (L & F & T).
  rewrite E in *. rewrite forallb_app in F. cbn [forallb] in F. rewrite !andb_true_iff in F.
  rewrite app_length in L. cbn [List.length] in L.
  assert (N : q <> []).
  { intros ->. pose proof (trim_last (full_text v)) as X. rewrite <- name_to_string_trim, E in X.
    apply X; [destruct p; discriminate|]. apply last_last. }
  assert (Tq : trim_dots q = q).
  { pose proof (trim_idem (full_text v)) as X. rewrite <- name_to_string_trim, E in X.
    clear - X N. assert (G : trim_dots (46 :: q) = 46 :: q -> trim_dots q = q).
    { cbn [trim_dots]. destruct (trim_dots q); [cbn; discriminate|]. congruence. }
    apply G. clear G. revert X. induction p as [|x p IH]; cbn [app]; auto.
    cbn [trim_dots]. intros X. apply IH. destruct (trim_dots (p ++ 46 :: q)).
    - destruct (x =? 46); [discriminate|]. injection X as X. destruct p; discriminate.
    - congruence. }
  repeat split; auto; try tauto; try lia.
  - intros c Hc. apply T. rewrite nth_error_app1; auto. apply nth_error_Some. congruence.
  - intros c Hc. exfalso. assert (12 < List.length q)%nat by (apply nth_error_Some; congruence). lia.
Qed.

Lemma suffix_text v p q : 0 <= v < 2 ^ 64 -> name_to_string v = p ++ 46 :: q -> ~ In 46 q ->
  name_to_string (name_suffix v) = q.
Proof.
  intros Hv E NI. destruct (valid_sub v p q Hv E) as (Vp & Vq & N & Tq).
  destruct (full_text_split v p q Hv E) as [k FT].
  destruct (full_text_spec v Hv) as (F1 & F2 & F3 & F4 & _).
  assert (DD : map digit (full_text v) = map digit p ++ 0 :: (map digit q ++ repeat 0 k)).
  { rewrite FT, map_app. cbn [map]. rewrite map_app, map_digit_dots, digit_dot. reflexivity. }
  rewrite DD in F1, F2.
  assert (L13 : List.length (map digit p ++ 0 :: map digit q ++ repeat 0 k) = 13%nat) by (rewrite <- DD, map_length; exact F4).
  assert (Hne : map digit q ++ repeat 0 k <> []) by (destruct q; [congruence|discriminate]).
  destruct (suffix_scan v _ F2 (eq_sym F1) L13) as (tmp & last0 & S1 & S2).
  assert (S3 : snd (sfx (map digit p ++ 0 :: map digit q ++ repeat 0 k) 59 (0, 0)) = 59 - 5 * Z.of_nat (List.length (map digit p))).
  { rewrite sfx_app. cbn [sfx]. rewrite Z.eqb_refl. rewrite sfx_app, sfx_zeros.
    rewrite sfx_nonzero; [reflexivity| |destruct q; [congruence|discriminate]].
    apply digits_nonzero; auto. destruct Vq as (_ & V & _). exact V. }
  pose proof (suffix_value v (map digit p) (map digit q ++ repeat 0 k) F2 (eq_sym F1) L13 Hne) as V. cbv zeta in V.
  unfold name_suffix. rewrite S1. rewrite S2, S3.
  assert (Lp : (List.length p <= 11)%nat).
  { rewrite !app_length, map_length in L13. cbn [List.length] in L13. rewrite app_length, map_length in L13.
    destruct q; [congruence|]. cbn in L13. lia. }
  destruct (Z.eqb_spec (59 - 5 * Z.of_nat (List.length (map digit p))) 0); [rewrite map_length in *; lia|].
  rewrite V. clear V.
  assert (Hk : (List.length q + k <= 12)%nat).
  { rewrite !app_length, map_length in L13. cbn [List.length] in L13. rewrite app_length, map_length, repeat_length in L13. lia. }
  assert (VE : nvd ((map digit q ++ repeat 0 k) ++ repeat 0 (13 - List.length (map digit q ++ repeat 0 k))) = string_to_name q).
  { destruct (name_value q Vq) as [VV _]. rewrite VV, map_pad. rewrite <- app_assoc, <- repeat_app.
    rewrite app_length, map_length, repeat_length. do 3 f_equal. lia. }
  rewrite VE, name_print_parse by auto. exact Tq.
Qed.

Lemma no_dot_digits v : 0 <= v < 2 ^ 64 -> ~ In 46 (name_to_string v) ->
  exists k, map digit (full_text v) = map digit (name_to_string v) ++ repeat 0 k /\ Forall (fun d => d <> 0) (map digit (name_to_string v)).
Proof.
  intros Hv N. destruct (trim_pad (full_text v)) as [k T]. exists k. rewrite <- name_to_string_trim in T.
  split; [rewrite T at 1; now rewrite map_app, map_digit_dots|].
  apply digits_nonzero; auto. apply (name_text_valid v Hv).
Qed.

Lemma suffix_no_dot v : 0 <= v < 2 ^ 64 -> ~ In 46 (name_to_string v) -> name_suffix v = v.
Proof.
  intros Hv N. destruct (no_dot_digits v Hv N) as (k & DD & NZ).
  destruct (full_text_spec v Hv) as (F1 & F2 & F3 & F4 & _).
  destruct (suffix_scan v _ F2 (eq_sym F1)) as (tmp & last0 & S1 & S2); [now rewrite map_length|].
  unfold name_suffix. rewrite S1, S2, DD, sfx_app, sfx_zeros.
  destruct (map digit (name_to_string v)) eqn:M; [reflexivity|].
  rewrite sfx_nonzero by (auto; discriminate). reflexivity.
Qed.

(** ** prefix *)
Lemma prefix_loop_zeros v a d : forall k b seen, dok (a ++ d :: repeat 0 k ++ b) -> v = nvd (a ++ d :: repeat 0 k ++ b) ->
  Forall (fun x => x = 0) b -> seen = false ->
  name_prefix_loop (List.length (a ++ d :: repeat 0 k)) v (offs (List.length b)) (match b with [] => 15 | _ => 31 end) seen =
  name_prefix_loop (List.length (a ++ [d])) v (offs (k + List.length b)) (match repeat 0 k ++ b with [] => 15 | _ => 31 end) seen.
Proof.
  induction k as [|k IH]; intros b seen D E F Hs.
  - cbn [repeat app Nat.add]. reflexivity.
  - assert (X : repeat 0 (S k) ++ b = repeat 0 k ++ (0 :: b)).
    { replace (S k) with (k + 1)%nat by lia. rewrite repeat_app, <- app_assoc. reflexivity. }
    rewrite X in D, E |- *.
    replace (List.length (a ++ d :: repeat 0 (S k))) with (S (List.length (a ++ d :: repeat 0 k))).
    2:{ rewrite !app_length. cbn [List.length]. rewrite !repeat_length. lia. }
    cbn [name_prefix_loop].
    assert (D' : dok ((a ++ d :: repeat 0 k) ++ 0 :: b)) by (rewrite <- app_assoc; exact D).
    destruct (extract _ _ _ D') as [_ Y]. rewrite <- app_assoc in Y. cbn [app] in Y. rewrite <- E in Y.
    rewrite Y, Z.eqb_refl, Hs.
    specialize (IH (0 :: b) false D E ltac:(constructor; auto) eq_refl).
    replace (if offs (List.length b) =? 0 then offs (List.length b) + 4 else offs (List.length b) + 5) with (offs (List.length (0 :: b))).
    2:{ destruct b; unfold offs; cbn [List.length]; [reflexivity|].
        destruct (Z.eqb_spec (5 * Z.of_nat (List.length b) + 4) 0); lia. }
    rewrite IH. f_equal. f_equal. cbn; lia.
Qed.

Lemma prefix_loop_nonzero v : forall q a b seen, dok (a ++ q ++ b) -> v = nvd (a ++ q ++ b) ->
  Forall (fun x => x <> 0) q -> (seen = true \/ q <> []) ->
  name_prefix_loop (List.length (a ++ q)) v (offs (List.length b)) (match b with [] => 15 | _ => 31 end) seen =
  name_prefix_loop (List.length a) v (offs (List.length (q ++ b))) (match q ++ b with [] => 15 | _ => 31 end) true.
Proof.
  induction q as [|d q IH] using rev_ind; intros a b seen D E F H.
  - rewrite app_nil_r. cbn [app]. destruct H; [subst; reflexivity|congruence].
  - apply Forall_app in F. destruct F as [Fq Fd]. inversion Fd as [|? ? Hd _]; subst x l.
    assert (X : (q ++ [d]) ++ b = q ++ (d :: b)) by (rewrite <- app_assoc; reflexivity).
    rewrite X in *.
    replace (List.length (a ++ q ++ [d])) with (S (List.length (a ++ q))) by (rewrite !app_length; cbn; lia).
    cbn [name_prefix_loop].
    assert (D' : dok ((a ++ q) ++ d :: b)) by (rewrite <- app_assoc; exact D).
    destruct (extract _ _ _ D') as [_ Y]. rewrite <- app_assoc in Y. cbn [app] in Y. rewrite <- E in Y. rewrite Y.
    destruct (Z.eqb_spec d 0); [congruence|].
    replace (if offs (List.length b) =? 0 then offs (List.length b) + 4 else offs (List.length b) + 5) with (offs (List.length (d :: b))).
    2:{ destruct b; unfold offs; cbn [List.length]; [reflexivity|].
        destruct (Z.eqb_spec (5 * Z.of_nat (List.length b) + 4) 0); lia. }
    exact (IH a (d :: b) true D E Fq (or_introl eq_refl)).
Qed.

Lemma prefix_text v p q : 0 <= v < 2 ^ 64 -> name_to_string v = p ++ 46 :: q -> ~ In 46 q ->
  name_to_string (name_prefix v) = trim_dots p.
Proof.
  intros Hv E NI. destruct (valid_sub v p q Hv E) as (Vp & Vq & N & Tq).
  destruct (full_text_split v p q Hv E) as [k FT].
  destruct (full_text_spec v Hv) as (F1 & F2 & F3 & F4 & _).
  assert (DD : map digit (full_text v) = map digit p ++ 0 :: (map digit q ++ repeat 0 k)).
  { rewrite FT, map_app. cbn [map]. rewrite map_app, map_digit_dots, digit_dot. reflexivity. }
  rewrite DD in F1, F2.
  assert (L13 : List.length (map digit p ++ 0 :: map digit q ++ repeat 0 k) = 13%nat) by (rewrite <- DD, map_length; exact F4).
  assert (NZ : Forall (fun d => d <> 0) (map digit q)) by (apply digits_nonzero; [apply Vq|auto]).
  assert (Nq : map digit q <> []) by (destruct q; [congruence|discriminate]).
  unfold name_prefix.
  (* zeros *)
  destruct (exists_last Nq) as (q0 & d & Q).
  assert (Z1 : (map digit p ++ 0 :: map digit q ++ repeat 0 k) = (map digit p ++ 0 :: q0) ++ d :: repeat 0 k ++ []).
  { rewrite Q, app_nil_r. rewrite <- !app_assoc. reflexivity. }
  assert (D1 := F2). rewrite Z1 in D1. assert (E1 := F1). rewrite Z1 in E1.
  pose proof (prefix_loop_zeros v (map digit p ++ 0 :: q0) d k [] false D1 (eq_sym E1) (Forall_nil _) eq_refl) as P1.
  rewrite app_nil_r in P1. cbn [List.length] in P1. rewrite Nat.add_0_r in P1.
  replace (List.length ((map digit p ++ 0 :: q0) ++ d :: repeat 0 k)) with 13%nat in P1.
  2:{ rewrite <- L13, Z1, app_nil_r. reflexivity. }
  change (offs 0) with 0 in P1. rewrite P1.
  (* nonzero part *)
  assert (Z2 : (map digit p ++ 0 :: map digit q ++ repeat 0 k) = (map digit p ++ [0]) ++ map digit q ++ repeat 0 k) by (rewrite <- app_assoc; reflexivity).
  assert (D2 := F2). rewrite Z2 in D2. assert (E2 := F1). rewrite Z2 in E2.
  pose proof (prefix_loop_nonzero v (map digit q) (map digit p ++ [0]) (repeat 0 k) false D2 (eq_sym E2) NZ (or_intror Nq)) as P2.
  rewrite Q in P2 at 1. rewrite repeat_length in P2.
  replace (List.length ((map digit p ++ [0]) ++ q0 ++ [d])) with (List.length ((map digit p ++ 0 :: q0) ++ [d])) in P2.
  2:{ rewrite !app_length. cbn. rewrite ?app_length. lia. }
  replace (match repeat 0 k ++ [] with [] => 15 | _ :: _ => 31 end) with (match repeat 0 k with [] => 15 | _ :: _ => 31 end) by (now rewrite app_nil_r).
  rewrite P2.
  (* the dot *)
  replace (List.length (map digit p ++ [0])) with (S (List.length p)) by (rewrite app_length, map_length; cbn; lia).
  cbn [name_prefix_loop].
  destruct (extract _ _ _ F2) as [Y1 Y]. rewrite F1 in Y, Y1.
  rewrite Y, Z.eqb_refl, Y1.
  set (m := List.length (map digit q ++ repeat 0 k)) in *.
  assert (Hm : (1 <= m <= 12)%nat).
  { rewrite app_length in L13. cbn in L13. fold m in L13. split; [|lia]. unfold m. rewrite app_length. destruct (map digit q); [congruence|cbn; lia]. }
  assert (Lp : (List.length p = 12 - m)%nat).
  { rewrite app_length, map_length in L13. cbn [List.length] in L13. fold m in L13. lia. }
  rewrite Z.shiftl_mul_pow2 by apply offs_nonneg. rewrite <- NB_offs.
  clearbody m. destruct (map digit q ++ repeat 0 k) eqn:W; [destruct (map digit q); [congruence|discriminate]|]. rewrite <- W in *.
  assert (VE : (fold_left (fun r d0 : Z => r * 32 + d0) (map digit p) 0 * 32 + 0) * NB m = string_to_name p).
  { destruct (name_value p Vp) as [VV _]. rewrite VV, map_pad.
    rewrite nvd_app by (rewrite repeat_length; lia). rewrite nvd_zeros, repeat_length.
    replace (13 - List.length p)%nat with (S m) by lia. destruct m; [lia|]. rewrite NB_SS. ring. }
  rewrite VE. now apply name_print_parse.
Qed.

Lemma prefix_no_dot v : 0 <= v < 2 ^ 64 -> ~ In 46 (name_to_string v) -> name_prefix v = v.
Proof.
  intros Hv N. destruct (no_dot_digits v Hv N) as (k & DD & NZ).
  destruct (full_text_spec v Hv) as (F1 & F2 & F3 & F4 & _).
  rewrite DD in F1, F2.
  assert (L13 : List.length (map digit (name_to_string v) ++ repeat 0 k) = 13%nat) by (rewrite <- DD, map_length; exact F4).
  remember (map digit (name_to_string v)) as q eqn:Hq. clear Hq DD N.
  destruct (list_eq_dec Z.eq_dec q []) as [Q|Nq].
  - assert (v = 0). { rewrite Q in F1. cbn [app] in F1. rewrite nvd_zeros in F1. auto. } rewrite H. reflexivity.
  - unfold name_prefix. destruct (exists_last Nq) as (q0 & d & Q).
    assert (Z1 : q ++ repeat 0 k = q0 ++ d :: repeat 0 k ++ []) by (rewrite Q, app_nil_r, <- app_assoc; reflexivity).
    assert (D1 := F2). rewrite Z1 in D1. assert (E1 := F1). rewrite Z1 in E1.
    pose proof (prefix_loop_zeros v q0 d k [] false D1 (eq_sym E1) (Forall_nil _) eq_refl) as P1.
    rewrite app_nil_r in P1. cbn [List.length] in P1. rewrite Nat.add_0_r in P1.
    replace (List.length (q0 ++ d :: repeat 0 k)) with 13%nat in P1.
    2:{ rewrite <- L13, Z1, app_nil_r. reflexivity. }
    change (offs 0) with 0 in P1. rewrite P1.
    pose proof (prefix_loop_nonzero v q [] (repeat 0 k) false F2 (eq_sym F1) NZ (or_intror Nq)) as P2.
    rewrite repeat_length in P2. cbn [app] in P2. rewrite <- Q.
    replace (match repeat 0 k ++ [] with [] => 15 | _ :: _ => 31 end) with (match repeat 0 k with [] => 15 | _ :: _ => 31 end) by (now rewrite app_nil_r).
    rewrite P2. reflexivity.
Qed.

(** ** length *)
Fixpoint lastnz (ds : bytes) (i l : Z) : Z :=
  match ds with [] => l | d :: ds' => lastnz ds' (i + 1) (if d =? 0 then l else i) end.

Lemma top_bits d r k : 0 <= k -> 0 <= d < 32 -> 0 <= r < 2 ^ 59 -> 
  (0 <? Z.land (d * 2 ^ 59 + r) 0xF800000000000000) = negb (d =? 0).
Proof.
  intros _ Hd Hr. change 0xF800000000000000 with (Z.shiftl 31 59).
  replace (Z.land (d * 2 ^ 59 + r) (Z.shiftl 31 59)) with (Z.shiftl d 59).
  - rewrite Z.shiftl_mul_pow2 by lia. destruct (Z.eqb_spec d 0); [subst; reflexivity|].
    apply Z.ltb_lt. nia.
  - apply Z.bits_inj'. intros n Hn. rewrite Z.land_spec, !Z.shiftl_spec by lia.
    destruct (Z_lt_dec n 59).
    + rewrite (Z.testbit_neg_r d), (Z.testbit_neg_r 31) by lia. now rewrite andb_false_r.
    + replace (Z.testbit (d * 2 ^ 59 + r) n) with (Z.testbit d (n - 59)).
      * rewrite <- Z.land_spec. now rewrite land31 by lia.
      * rewrite <- (Z.sub_add 59 n) at 2. rewrite <- Z.shiftr_spec by lia. f_equal.
        rewrite Z.shiftr_div_pow2 by lia. symmetry. rewrite Z.add_comm, Z.div_add by lia.
        rewrite Z.div_small by lia. lia.
Qed.

Lemma length_loop_spec ds : forall i l, dok ds -> (1 <= List.length ds)%nat -> Z.of_nat (List.length ds) + i = 13 -> 0 <= i ->
  name_length_loop (List.length ds) i (nvd ds * 2 ^ (5 * i)) l = lastnz ds i l.
Proof.
  induction ds as [|d ds IH]; intros i l D P L Hi; [reflexivity|].
  cbn [List.length name_length_loop lastnz nvd] in *. destruct D as [Hd D].
  destruct ds as [|d' ds].
  - cbn [List.length nvd NB name_length_loop lastnz] in *. assert (i = 12) by lia. subst i.
    replace ((d * 1 + 0) * 2 ^ (5 * 12)) with ((2 * d) * 2 ^ 59 + 0) by (change (2 ^ (5 * 12)) with (2 * 2 ^ 59); ring).
    rewrite (top_bits _ _ 0) by lia. destruct (Z.eqb_spec d 0), (Z.eqb_spec (2 * d) 0); try lia; reflexivity.
  - cbn [List.length] in L. set (e := d' :: ds) in *. assert (Le : List.length e = S (List.length ds)) by reflexivity.
    pose proof (nvd_bound e D) as B. rewrite Le in *.
    assert (X : NB (S (List.length ds)) * 2 ^ (5 * i) = 2 ^ 59).
    { rewrite NB_pow, <- Z.pow_add_r by lia. f_equal. lia. }
    pose proof (Z.pow_pos_nonneg 2 (5 * i) ltac:(lia) ltac:(lia)).
    replace ((d * NB (S (List.length ds)) + nvd e) * 2 ^ (5 * i)) with (d * 2 ^ 59 + nvd e * 2 ^ (5 * i)) by (rewrite <- X; ring).
    rewrite (top_bits _ _ 0) by nia.
    assert (Y : Z.shiftl (d * 2 ^ 59 + nvd e * 2 ^ (5 * i)) 5 mod 2 ^ 64 = nvd e * 2 ^ (5 * (i + 1))).
    { rewrite Z.shiftl_mul_pow2 by lia. replace (5 * (i + 1)) with (5 * i + 5) by lia. rewrite (Z.pow_add_r 2 (5 * i) 5) by lia.
      change (2 ^ 64) with (2 ^ 59 * 2 ^ 5). replace ((d * 2 ^ 59 + nvd e * 2 ^ (5 * i)) * 2 ^ 5) with (nvd e * (2 ^ (5 * i) * 2 ^ 5) + d * (2 ^ 59 * 2 ^ 5)) by ring.
      rewrite Z.mod_add by lia. apply Z.mod_small. nia. }
    rewrite Y. specialize (IH (i + 1) (if d =? 0 then l else i) D ltac:(lia) ltac:(lia) ltac:(lia)).
    rewrite <- IH. destruct (d =? 0); reflexivity.
Qed.
Lemma lastnz_app a : forall b i l, lastnz (a ++ b) i l = lastnz b (i + Z.of_nat (List.length a)) (lastnz a i l).
Proof.
  induction a as [|x a IH]; intros b i l; cbn [app lastnz List.length].
  - f_equal. cbn. lia.
  - rewrite IH. f_equal. lia.
Qed.
Lemma lastnz_zeros k : forall i l, lastnz (repeat 0 k) i l = l.
Proof. induction k; intros; cbn; auto. Qed.
Lemma name_length_text v : 0 <= v < 2 ^ 64 -> name_length v = Z.of_nat (List.length (name_to_string v)).
Proof.
  intros Hv. unfold name_length. destruct (Z.eqb_spec v 0) as [->|N]; [reflexivity|].
  destruct (full_text_spec v Hv) as (F1 & F2 & F3 & F4 & _).
  pose proof (length_loop_spec (map digit (full_text v)) 0 0 F2) as H. rewrite map_length, F4, F1 in H.
  change (2 ^ (5 * 0)) with 1 in H. rewrite Z.mul_1_r in H. rewrite H by lia.
  destruct (trim_pad (full_text v)) as [k T]. rewrite <- name_to_string_trim in T.
  rewrite T at 1. rewrite map_app, map_digit_dots, lastnz_app, lastnz_zeros.
  pose proof (trim_last (full_text v)) as TL. rewrite <- name_to_string_trim in TL.
  set (s := name_to_string v) in *.
  assert (Ns : s <> []).
  { intros E. apply N. rewrite <- F1, T, E. cbn [app]. now rewrite map_digit_dots, nvd_zeros. }
  specialize (TL Ns). destruct (exists_last Ns) as (s' & c & E). rewrite E in *. rewrite last_last in TL.
  rewrite map_app, lastnz_app. cbn [map lastnz].
  assert (Hc : name_text_char c = true).
  { pose proof (name_text_valid v Hv) as (_ & F & _). fold s in F. rewrite E, forallb_app in F. cbn in F.
    rewrite !andb_true_iff in F. tauto. }
  destruct (Z.eqb_spec (digit c) 0) as [Z0|_]; [apply digit_zero in Z0; auto; congruence|].
  rewrite map_length, app_length. cbn. lia.
Qed.
