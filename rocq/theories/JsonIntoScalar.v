(** * JsonIntoScalar: what a failing reading leaves in an object of a built-in type (lemmas for C58) *)
From Verif Require Import Base Stream TypedBin TypedSpec DecodeIntoSpec Prop_DecodeInto Hex Prop_Hex Decimal Name Asset AssetFacts Time TimeSpec TimeText Keys KeysFacts
  JsonInt JsonIntFacts Json Abi AbiScalar AbiScalarFacts TypedJson TypedJsonSpec JsonInto JsonIntoSpec.

(** ** Integers *)
Lemma digit_signed n sign lim : int_size n -> (sign = 1 /\ lim = 2 ^ (tbits n - 1) - 1 \/ sign = -1 /\ lim = 2 ^ (tbits n - 1)) ->
  forall v c, 0 <= v <= lim -> is_digit c = true ->
  int_digit true n sign (sign * lim) (sign * v) c = if lim <? v * 10 + (c - 48) then Err E_number_out_of_range else Ok (sign * (v * 10 + (c - 48))).
Proof.
  intros Hn Hs v c Hv Hc. pose proof (pow_half n Hn) as HM. remember (2 ^ (tbits n - 1)) as M eqn:EM.
  assert (AR : forall z, - M <= z < M -> arith true n z = Ok z) by (intros z Hz; apply arith_signed; auto; rewrite <- EM; exact Hz).
  assert (CV : forall z, - M <= z < M -> convert_to true n z = z) by (intros z Hz; apply convert_signed; auto; rewrite <- EM; exact Hz).
  apply is_digit_range in Hc. unfold int_digit. cbv zeta. remember (c - 48) as d eqn:Ed. assert (Hd : 0 <= d <= 9) by lia.
  rewrite (CV d) by lia. rewrite (AR (- sign)) by lia. cbn [bind].
  assert (E1 : - sign * (sign * lim) = - lim) by (destruct Hs as [[-> _]|[-> _]]; lia). rewrite E1.
  rewrite (AR (- lim)) by lia. cbn [bind]. rewrite (AR (- lim + d)) by lia. cbn [bind].
  assert (E2 : - sign * (sign * v) = - v) by (destruct Hs as [[-> _]|[-> _]]; lia). rewrite E2.
  rewrite (AR (- v)) by lia. cbn [bind].
  replace (- lim + d) with (- (lim - d)) by lia. rewrite quot_neg by lia. unfold check.
  destruct (lim <? v * 10 + d) eqn:El.
  - destruct (- v <? - ((lim - d) / 10)) eqn:Eq; [reflexivity|lia].
  - destruct (- v <? - ((lim - d) / 10)) eqn:Eq; [lia|]. cbn [negb bind].
    assert (B1 : - M <= sign * v * 10 < M) by (destruct Hs as [[-> ->]|[-> ->]]; lia).
    assert (B2 : - M <= sign * d < M) by (destruct Hs as [[-> ->]|[-> ->]]; lia).
    assert (B3 : - M <= sign * v * 10 + sign * d < M) by (destruct Hs as [[-> ->]|[-> ->]]; lia).
    rewrite (AR _ B1). cbn [bind]. rewrite (AR _ B2). cbn [bind]. rewrite (AR _ B3). cbn [bind]. rewrite (CV _ B3).
    f_equal. ring.
Qed.
Lemma digit_unsigned n : int_size n -> forall v c, 0 <= v <= 2 ^ tbits n - 1 -> is_digit c = true ->
  int_digit false n 1 (2 ^ tbits n - 1) v c = if 2 ^ tbits n - 1 <? v * 10 + (c - 48) then Err E_number_out_of_range else Ok (v * 10 + (c - 48)).
Proof.
  intros Hn v c Hv Hc. pose proof (pow_full n Hn) as HM. remember (2 ^ tbits n) as M eqn:EM.
  assert (AR : forall z, 0 <= z < M -> arith false n z = Ok z) by (intros z Hz; apply arith_unsigned; auto; rewrite <- EM; exact Hz).
  assert (CV : forall z, 0 <= z < M -> convert_to false n z = z) by (intros z Hz; apply convert_unsigned; rewrite <- EM; exact Hz).
  apply is_digit_range in Hc. unfold int_digit. cbv zeta. remember (c - 48) as d eqn:Ed. assert (Hd : 0 <= d <= 9) by lia.
  rewrite (CV d) by lia. cbn [bind]. rewrite (AR (M - 1 - d)) by lia. cbn [bind]. rewrite Z.quot_div_nonneg by lia. unfold check.
  destruct (M - 1 <? v * 10 + d) eqn:El.
  - destruct ((M - 1 - d) / 10 <? v) eqn:Eq; [reflexivity|lia].
  - destruct ((M - 1 - d) / 10 <? v) eqn:Eq; [lia|]. cbn [negb bind].
    rewrite (AR (v * 10)) by lia. cbn [bind]. rewrite (AR (1 * d)) by lia. cbn [bind]. rewrite (AR (v * 10 + 1 * d)) by lia. cbn [bind].
    rewrite (CV (v * 10 + 1 * d)) by lia. f_equal. lia.
Qed.
Fixpoint stopv (lim v : Z) (s : bytes) : Z :=
  match s with
  | c :: s' => if is_digit c then if lim <? v * 10 + (c - 48) then v else stopv lim (v * 10 + (c - 48)) s' else v
  | [] => v
  end.
Lemma left_signed n sign lim s : int_size n -> (sign = 1 /\ lim = 2 ^ (tbits n - 1) - 1 \/ sign = -1 /\ lim = 2 ^ (tbits n - 1)) ->
  forall v, 0 <= v <= lim -> int_loop_left true n sign (sign * lim) (sign * v) s = sign * stopv lim v s.
Proof.
  intros Hn Hs. induction s as [|c s IH]; intros v Hv; [reflexivity|]. cbn [int_loop_left stopv]. fold (is_digit c). destruct (is_digit c) eqn:D; [|reflexivity].
  rewrite digit_signed by auto. apply is_digit_range in D. destruct (lim <? _) eqn:L; [reflexivity|]. apply IH. lia.
Qed.
Lemma left_unsigned n s : int_size n -> forall v, 0 <= v <= 2 ^ tbits n - 1 -> int_loop_left false n 1 (2 ^ tbits n - 1) v s = stopv (2 ^ tbits n - 1) v s.
Proof.
  intros Hn. induction s as [|c s IH]; intros v Hv; [reflexivity|]. cbn [int_loop_left stopv]. fold (is_digit c). destruct (is_digit c) eqn:D; [|reflexivity].
  rewrite digit_unsigned by auto. apply is_digit_range in D. destruct (_ <? _) eqn:L; [reflexivity|]. apply IH. lia.
Qed.
Lemma stopv_spec lim s : forall v, 0 <= v <= lim -> exists p q, s = p ++ q /\ forallb is_digit p = true /\ stopv lim v s = facc v p /\ 0 <= facc v p <= lim /\
  forall p' q', s = p' ++ q' -> forallb is_digit p' = true -> facc v p' <= lim -> (List.length p' <= List.length p)%nat.
Proof.
  induction s as [|c s IH]; intros v Hv.
  - exists [], []. cbn. repeat split; auto; try lia. intros [|x p'] q' H _ _; [cbn; lia|discriminate].
  - cbn [stopv]. destruct (is_digit c) eqn:D.
    + pose proof (proj1 (is_digit_range c) D) as R. destruct (lim <? v * 10 + (c - 48)) eqn:L.
      * exists [], (c :: s). cbn. repeat split; auto; try lia. intros [|x p'] q' H Dp F; [cbn; lia|]. exfalso.
        cbn [app] in H. assert (x = c) by congruence. subst x. cbn [forallb] in Dp. apply andb_prop in Dp as [_ Dp].
        unfold facc in F. cbn [fold_left] in F. pose proof (facc_mono p' (v * 10 + (c - 48)) ltac:(lia) Dp) as Mn. unfold facc in Mn. lia.
      * destruct (IH (v * 10 + (c - 48)) ltac:(lia)) as (p & q & -> & Dp & St & Rg & Mx). exists (c :: p), q.
        cbn [app forallb]. rewrite D, Dp. repeat split; auto; try (unfold facc in *; cbn [fold_left]; lia).
        intros [|x p'] q' H Dp' F; [cbn; lia|]. cbn [app] in H. assert (x = c) by congruence. subst x. cbn [List.length]. apply le_n_S.
        cbn [forallb] in Dp'. apply andb_prop in Dp' as [_ Dp']. apply (Mx p' q'); [congruence|exact Dp'|]. exact F.
    + exists [], (c :: s). cbn. repeat split; auto; try lia. intros [|x p'] q' H Dp F; [cbn; lia|]. exfalso.
      cbn [app] in H. assert (x = c) by congruence. subst x. cbn [forallb] in Dp. rewrite D in Dp. discriminate.
Qed.
Lemma tmax_val sg n : tmax sg n = if sg then 2 ^ (tbits n - 1) - 1 else 2 ^ tbits n - 1. Proof. reflexivity. Qed.
Lemma dval_nonneg d : forallb is_digit d = true -> 0 <= dval d.
Proof. intros H. pose proof (facc_mono d 0 ltac:(lia) H) as M. now rewrite facc_dval in M. Qed.
Lemma int_left_spec sg n s : int_size n -> longest (int_text sg n) 0 s (int_left sg n s).
Proof.
  intros Hn. pose proof (pow_half n Hn) as HH. pose proof (pow_full n Hn) as HF.
  assert (Pos : (forall r, s = 45 :: r -> sg = false) -> longest (int_text sg n) 0 s (int_loop_left sg n 1 (tmax sg n) 0 s)).
  { intros NN. assert (Q : int_loop_left sg n 1 (tmax sg n) 0 s = stopv (tmax sg n) 0 s).
    { destruct sg; unfold tmax.
      - pose proof (left_signed n 1 (2 ^ (tbits n - 1) - 1) s Hn ltac:(left; split; reflexivity) 0 ltac:(lia)) as L. rewrite !Z.mul_1_l in L. exact L.
      - apply left_unsigned; [exact Hn|lia]. }
    assert (B : 0 <= tmax sg n) by (destruct sg; unfold tmax; lia).
    destruct (stopv_spec (tmax sg n) s 0 ltac:(lia)) as (p & q & Es & Dp & St & Rg & Mx). rewrite facc_dval in *. rewrite Q, St.
    assert (Txt : forall p' z, (exists q', s = p' ++ q') -> int_text sg n p' z -> p' <> [] /\ forallb is_digit p' = true /\ z = dval p' /\ dval p' <= tmax sg n).
    { intros p' z [q' E'] (R & d & Nd & Dd & [[-> ->]|(-> & -> & ->)]).
      - repeat split; auto. lia.
      - exfalso. cbn [app] in E'. specialize (NN _ E'). discriminate. }
    assert (Tm : tmin sg n <= 0) by (destruct sg; unfold tmin; lia).
    destruct p as [|c p].
    - right. split; [reflexivity|]. intros p' q' z' E' T. destruct (Txt p' z' ltac:(eauto) T) as (N & D & -> & L).
      specialize (Mx p' q' E' D). rewrite facc_dval in Mx. specialize (Mx L). destruct p'; [auto|cbn in Mx; lia].
    - left. exists (c :: p), q. split; [exact Es|]. split.
      + split; [lia|]. exists (c :: p). repeat split; auto. discriminate.
      + intros p' q' z' E' T. destruct (Txt p' z' ltac:(eauto) T) as (N & D & -> & L). apply (Mx p' q' E' D). now rewrite facc_dval. }
  unfold int_left. destruct s as [|c s]; [apply Pos; discriminate|].
  destruct (Z.eq_dec c 45) as [->|Hc].
  2:{ assert (Q : forall (A : Type) (x y : A), match c with 45 => x | _ => y end = y).
      { intros A x y. destruct c as [|p|p]; auto. do 7 (try (destruct p as [p|p|]; auto)); congruence. }
      rewrite Q. apply Pos. intros r H. congruence. }
  destruct sg.
  - assert (Q : int_loop_left true n (-1) (tmin true n) 0 s = - stopv (- tmin true n) 0 s).
    { unfold tmin. pose proof (left_signed n (-1) (2 ^ (tbits n - 1)) s Hn ltac:(right; split; reflexivity) 0 ltac:(lia)) as L.
      replace (-1 * 2 ^ (tbits n - 1)) with (- 2 ^ (tbits n - 1)) in L by lia. rewrite Z.mul_0_r in L. rewrite L. rewrite Z.opp_involutive. lia. }
    rewrite Q. assert (Tm : tmin true n < 0) by (unfold tmin; lia).
    destruct (stopv_spec (- tmin true n) s 0 ltac:(lia)) as (p & q & Es & Dp & St & Rg & Mx). rewrite facc_dval in *. rewrite St.
    assert (Txt : forall p' z, (exists q', 45 :: s = p' ++ q') -> int_text true n p' z -> exists d q', p' = 45 :: d /\ s = d ++ q' /\ d <> [] /\ forallb is_digit d = true /\ z = - dval d /\ dval d <= - tmin true n).
    { intros p' z [q' E'] (R & d & Nd & Dd & [[-> ->]|(_ & -> & ->)]).
      - exfalso. destruct d as [|x d]; [congruence|]. cbn [app] in E'. assert (x = 45) by congruence. subst x. cbn in Dd. discriminate.
      - exists d, q'. cbn [app] in E'. repeat split; auto; [congruence|]. lia. }
    assert (Tx : 0 < tmax true n) by (unfold tmax; lia).
    destruct p as [|c p].
    + right. split; [reflexivity|]. intros p' q' z' E' T. destruct (Txt p' z' ltac:(eauto) T) as (d & r & -> & E2 & N & D & -> & L).
      specialize (Mx d r E2 D). rewrite facc_dval in Mx. specialize (Mx L). destruct d; [auto|cbn in Mx; lia].
    + left. exists (45 :: c :: p), q. split; [cbn [app] in *; congruence|]. split.
      * split; [lia|]. exists (c :: p). split; [discriminate|]. split; [exact Dp|]. right. auto.
      * intros p' q' z' E' T. destruct (Txt p' z' ltac:(eauto) T) as (d & r & -> & E2 & N & D & -> & L). cbn [List.length]. apply le_n_S.
        apply (Mx d r E2 D). now rewrite facc_dval.
  - right. split; [reflexivity|]. intros p q z E (R & d & Nd & Dd & [[-> ->]|(C & _)]); [|discriminate].
    destruct d as [|x d]; [congruence|]. cbn [app] in E. assert (x = 45) by congruence. subst x. cbn in Dd. discriminate.
Qed.
Lemma int_left_range sg n s : int_size n -> tmin sg n <= int_left sg n s <= tmax sg n.
Proof.
  intros Hn. destruct (int_left_spec sg n s Hn) as [(p & q & _ & [R _] & _)|[-> _]]; [exact R|].
  pose proof (pow_half n Hn). pose proof (pow_full n Hn). destruct sg; unfold tmin, tmax; lia.
Qed.

(** ** Greedy reading *)
Lemma run_max p (a b a' b' : bytes) : a ++ b = a' ++ b' -> forallb p a = true -> forallb p a' = true -> stops p b ->
  exists c, a = a' ++ c /\ b' = c ++ b /\ forallb p c = true.
Proof.
  revert a'. induction a as [|x a IH]; intros a' H Pa Pa' Sb.
  - cbn [app] in H. destruct a' as [|y a'].
    + exists []. now cbn in *.
    + exfalso. cbn [app] in H. subst b. cbn [stops] in Sb. cbn [forallb] in Pa'. rewrite Sb in Pa'. discriminate.
  - destruct a' as [|y a'].
    + exists (x :: a). now cbn in *.
    + cbn [app forallb] in *. apply andb_prop in Pa as [Px Pa]. apply andb_prop in Pa' as [_ Pa']. assert (y = x) by congruence. subst y.
      destruct (IH a' ltac:(congruence) Pa Pa' Sb) as (c & -> & -> & Pc). exists c. auto.
Qed.
Lemma spaces_all k : forallb (fun c => c =? 32) (spaces k) = true. Proof. now apply forallb_repeat. Qed.
Lemma spaces_len k : List.length (spaces k) = k. Proof. apply repeat_length. Qed.

(** ** Symbol codes *)
Lemma code_loop_left_spec : forall s i r, 0 <= i <= 7 -> 0 <= r < 2 ^ (8 * i) ->
  exists l rest, s = l ++ rest /\ forallb is_upper l = true /\ i + Z.of_nat (List.length l) <= 7 /\
    (i + Z.of_nat (List.length l) = 7 \/ stops is_upper rest) /\ code_loop_left s i r = r + 2 ^ (8 * i) * le_val l.
Proof.
  induction s as [|c s IH]; intros i r Hi Hr.
  - exists [], []. cbn [code_loop_left List.length le_val stops app forallb]. repeat split; auto; lia.
  - cbn [code_loop_left]. destruct (is_upper c) eqn:C.
    + destruct (Z.leb_spec 7 i).
      * exists [], (c :: s). cbn [List.length le_val app forallb]. repeat split; auto; lia.
      * pose proof (proj1 (upper_range c) C) as Rc.
        assert (P : 2 ^ (8 * (i + 1)) = 256 * 2 ^ (8 * i)).
        { replace (8 * (i + 1)) with (8 + 8 * i) by lia. rewrite Z.pow_add_r by lia. reflexivity. }
        assert (P64 : 2 ^ (8 * i) * 256 <= 2 ^ 64).
        { rewrite Z.mul_comm, <- P. apply Z.pow_le_mono_r; lia. }
        assert (0 < 2 ^ (8 * i)) by (apply Z.pow_pos_nonneg; lia).
        rewrite Z.mod_small by (rewrite Z.shiftl_mul_pow2 by lia; nia). rewrite lor_add_disjoint by lia.
        destruct (IH (i + 1) (r + c * 2 ^ (8 * i)) ltac:(lia) ltac:(rewrite P; nia)) as (l & rest & -> & U & L & St & Q).
        exists (c :: l), rest. rewrite Q. cbn [app forallb List.length le_val]. rewrite C, U. repeat split; auto; try lia.
        all: rewrite ?P; try ring. destruct St as [St|St]; [left; lia|now right].
    + exists [], (c :: s). cbn [List.length le_val app forallb stops]. repeat split; auto; lia.
Qed.
Lemma code_left_spec s : longest code_start 0 s (code_left s).
Proof.
  left. destruct (span_spec (fun c => c =? 32) s) as (a & b & Sp & Es & Fa & St). unfold code_left. rewrite Sp. cbn [snd].
  destruct (code_loop_left_spec b 0 0 ltac:(lia) ltac:(cbn; lia)) as (l & rest & -> & U & L & Stl & Q). rewrite Q.
  apply all_eq_repeat in Fa as Ea. fold (spaces (List.length a)) in Ea. rewrite Ea in Es, Fa. remember (List.length a) as k eqn:Ek. clear Ea Ek Sp a Q.
  exists (spaces k ++ l), rest. rewrite app_assoc in Es. split; [exact Es|]. split.
  - exists k, l. repeat split; auto; [lia|]. change (2 ^ (8 * 0)) with 1. lia.
  - intros p' q' z' E' (k' & l' & -> & L' & U' & ->). rewrite app_length, spaces_len, app_length, spaces_len.
    rewrite Es in E'. rewrite <- !app_assoc in E'.
    destruct (run_max (fun c => c =? 32) _ _ _ _ E' Fa (spaces_all k') St) as (c & Ec & Er & Fc).
    assert (Lk : k = (k' + List.length c)%nat) by (rewrite <- (spaces_len k), Ec, app_length, spaces_len; reflexivity).
    destruct c as [|x c].
    + cbn [app] in Er. destruct Stl as [Stl|Stl]; [lia|].
      destruct (run_max is_upper l rest l' q' (eq_sym Er) U U' Stl) as (d & -> & _). rewrite app_length. cbn [List.length] in Lk. lia.
    + cbn [forallb] in Fc. apply andb_prop in Fc as [Fx _]. apply Z.eqb_eq in Fx. subst x.
      destruct l' as [|y l']; [cbn [List.length] in *; lia|]. exfalso. cbn [app forallb] in *. assert (y = 32) by congruence. subst y. discriminate U'.
Qed.
Lemma code_left_range s : 0 <= code_left s < 2 ^ 64.
Proof.
  destruct (code_left_spec s) as [(p & q & _ & (k & l & _ & L & U & ->) & _)|[-> _]]; [|lia].
  pose proof (le_val_bound l (upper_bytes l U)) as B. assert (2 ^ (8 * Z.of_nat (List.length l)) <= 2 ^ 64) by (apply Z.pow_le_mono_r; lia).
  assert (256 ^ Z.of_nat (List.length l) = 2 ^ (8 * Z.of_nat (List.length l))) by (change 256 with (2 ^ 8); rewrite <- Z.pow_mul_r by lia; reflexivity).
  lia.
Qed.

(** ** Symbols *)
Lemma prec_loop_any : forall s p f, exists d r, s = d ++ r /\ forallb is_digit d = true /\ stops is_digit r /\
  exists p', precision_loop s p f = (p', f || negb (Nat.eqb (List.length d) 0), r).
Proof.
  induction s as [|c s IH]; intros p f.
  - exists [], []. cbn. repeat split. exists p. now rewrite Bool.orb_false_r.
  - cbn [precision_loop]. destruct (is_digit c) eqn:C.
    + destruct (IH ((p * 10 + (c - 48)) mod 256) true) as (d & r & -> & Dd & Sr & p' & Q). exists (c :: d), r. cbn [app forallb List.length Nat.eqb negb]. rewrite C, Dd.
      repeat split; auto. exists p'. rewrite Q. cbn [orb]. now rewrite Bool.orb_true_r.
    + exists [], (c :: s). cbn [app forallb stops List.length Nat.eqb negb]. repeat split; auto. exists p. now rewrite Bool.orb_false_r.
Qed.
Lemma symbol_left_spec old s :
  (forall d r, s = d ++ 44 :: r -> d <> [] -> forallb is_digit d = true -> symbol_left old s = code_left r) /\
  ((forall d r, s = d ++ 44 :: r -> d <> [] -> forallb is_digit d = false) -> symbol_left old s = old).
Proof.
  unfold symbol_left. destruct (prec_loop_any s 0 false) as (d & r & -> & Dd & Sr & p' & ->). cbn [orb]. split.
  - intros d' r' H Nd Dd'. destruct (run_max is_digit d r d' (44 :: r') H Dd Dd' Sr) as (c & -> & Er & Fc).
    destruct c as [|x c]; [|exfalso; cbn [app forallb] in *; assert (x = 44) by congruence; subst x; discriminate Fc].
    cbn [app] in Er. subst r. rewrite app_nil_r. destruct d' as [|y d']; [congruence|]. reflexivity.
  - intros H. destruct r as [|c r]; [now destruct (negb _)|]. destruct (Z.eq_dec c 44) as [->|Hc].
    + destruct d as [|x d]; [reflexivity|]. rewrite (H (x :: d) r eq_refl ltac:(discriminate)) in Dd. discriminate.
    + destruct (negb _); [|reflexivity]. destruct c as [|q|q]; auto. do 6 (try (destruct q as [q|q|]; auto)); congruence.
Qed.
Lemma symbol_left_range old s : 0 <= old < 2 ^ 64 -> 0 <= symbol_left old s < 2 ^ 64.
Proof.
  intros H. unfold symbol_left. destruct (precision_loop s 0 false) as [[p f] r]. destruct f; [|exact H].
  destruct r as [|c r]; [exact H|]. destruct (Z.eq_dec c 44) as [->|Hc]; [apply code_left_range|].
  destruct c as [|q|q]; auto. do 6 (try (destruct q as [q|q|]; auto)); congruence.
Qed.

(** ** Assets *)
Lemma fraction_max (ip c ip' : bytes) frac frac' (rest q' : bytes) : forallb is_digit ip = true -> forallb is_digit ip' = true ->
  forallb is_digit (frac_digits frac) = true -> forallb is_digit (frac_digits frac') = true -> stops is_digit c -> c = frac_text frac ++ rest ->
  (frac = None -> forall r, rest <> 46 :: r) -> (frac <> None -> stops is_digit rest) ->
  ip ++ c = ip' ++ frac_text frac' ++ q' -> (List.length ip' + List.length (frac_text frac') <= List.length ip + List.length (frac_text frac))%nat.
Proof.
  intros Dip Dip' Df Df' Sc Ec Nf Sf Er2. destruct (run_max is_digit ip c ip' (frac_text frac' ++ q') Er2 Dip Dip' Sc) as (d & -> & Er3 & Fdd). rewrite app_length.
  destruct frac' as [f'|]; [|cbn [frac_text List.length]; lia]. destruct d as [|y d].
  - cbn [app] in Er3. rewrite Ec in Er3. destruct frac as [f|]; [|exfalso; cbn [frac_text app] in Er3; now apply (Nf eq_refl (f' ++ q'))].
    cbn [frac_text frac_digits app List.length] in *. assert (Er4 : f ++ rest = f' ++ q') by congruence.
    destruct (run_max is_digit f rest f' q' Er4 Df Df' (Sf ltac:(discriminate))) as (g & -> & _). rewrite app_length. lia.
  - exfalso. cbn [frac_text app forallb] in *. assert (y = 46) by congruence. subst y. discriminate Fdd.
Qed.
Lemma amount_left_spec s : longest amount_start 0 s (amount_left s).
Proof.
  left. destruct (span_spec (fun c => c =? 32) s) as (a & b & Sp & Es & Fa & St). unfold amount_left. rewrite Sp.
  apply all_eq_repeat in Fa as Ea. fold (spaces (List.length a)) in Ea. rewrite Ea in Es, Fa. remember (List.length a) as k eqn:Ek. clear Ea Ek Sp a.
  assert (Sg : exists neg b', asset_sign b = (neg, b') /\ b = sign_text neg ++ b' /\ (neg = false -> forall r, b <> 45 :: r)).
  { destruct b as [|c b]; [exists false, []; repeat split; discriminate|]. unfold asset_sign. destruct (Z.eqb_spec c 45) as [->|N].
    - exists true, b. repeat split. discriminate.
    - exists false, (c :: b). repeat split. intros _ r. congruence. }
  destruct Sg as (neg & b' & -> & Eb & Ng).
  destruct (span_spec is_digit b') as (ip & c & _ & Eb' & Dip & Sc). rewrite Eb'. rewrite (amt_loop c ip 0 Dip Sc) by lia. rewrite Z.mul_0_l, Z.add_0_l.
  assert (Fr : exists frac rest, c = frac_text frac ++ rest /\ forallb is_digit (frac_digits frac) = true /\
      (frac = None -> forall r, rest <> 46 :: r) /\ (frac <> None -> stops is_digit rest) /\
      fst (fst (asset_frac (dval ip mod 2 ^ 64) c)) = dval (ip ++ frac_digits frac) mod 2 ^ 64).
  { destruct c as [|x c].
    { exists None, []. cbn [frac_text frac_digits app forallb asset_frac fst]. rewrite app_nil_r. repeat split; congruence. }
    unfold asset_frac. destruct (Z.eqb_spec x 46) as [->|N].
    - destruct (span_spec is_digit c) as (f & r & _ & -> & Df & Sr). exists (Some f), r. cbn [frac_text frac_digits app]. repeat split; auto; [congruence|].
      rewrite (frac_loop r f _ 0 Df Sr) by (try (apply Z.mod_pos_bound); lia). cbn [fst]. rewrite dval_app.
      rewrite <- Z.add_mod_idemp_l, Z.mul_mod_idemp_l, Z.add_mod_idemp_l by lia. reflexivity.
    - exists None, (x :: c). cbn [frac_text frac_digits app forallb fst]. rewrite app_nil_r. repeat split; try congruence. }
  destruct Fr as (frac & rest & Ec & Df & Nf & Sf & Ev). destruct (asset_frac _ c) as [[u pr] z]. cbn [fst] in Ev. subst u. rewrite signed_amount.
  exists (spaces k ++ sign_text neg ++ ip ++ frac_text frac), rest. split; [rewrite Es, Eb, Eb', Ec; now rewrite <- !app_assoc|]. split.
  { exists k, neg, ip, frac. repeat split; auto. }
  intros p' q' z' E' (k' & neg' & ip' & frac' & -> & Dip' & Df' & _). rewrite !app_length, !spaces_len.
  rewrite Es in E'. rewrite <- !app_assoc in E'.
  destruct (run_max (fun c => c =? 32) _ _ _ _ E' Fa (spaces_all k') St) as (d & Ed & Er & Fd).
  assert (Lk : k = (k' + List.length d)%nat) by (rewrite <- (spaces_len k), Ed, app_length, spaces_len; reflexivity).
  assert (Stop : forall x r, sign_text neg' ++ ip' ++ frac_text frac' ++ q' = x :: r -> x <> 45 -> x <> 46 -> is_digit x = false -> sign_text neg' = [] /\ ip' = [] /\ frac_text frac' = []).
  { intros x r H H1 H2 H3. destruct neg'; [exfalso; cbn [sign_text app] in H; congruence|]. destruct ip' as [|y ip'].
    - destruct frac' as [f|]; [exfalso; cbn [sign_text app frac_text] in H; congruence|auto].
    - exfalso. cbn [sign_text app forallb] in *. assert (y = x) by congruence. subst y. rewrite H3 in Dip'. discriminate. }
  destruct d as [|x d].
  2:{ cbn [forallb] in Fd. apply andb_prop in Fd as [Fx _]. apply Z.eqb_eq in Fx. subst x.
      destruct (Stop 32 (d ++ b)) as (-> & -> & ->); [exact Er|lia|lia|reflexivity|]. cbn [List.length] in *. lia. }
  cbn [app List.length] in Er, Lk. assert (k = k') by lia. subst k'. rewrite Eb in Er. apply Nat.add_le_mono_l.
  pose proof (fraction_max ip c ip' frac frac' rest q' Dip Dip' Df Df' Sc Ec Nf Sf) as Tail.
  destruct neg'.
  - destruct neg; [|exfalso; cbn [sign_text app] in Er; apply (Ng eq_refl _ (eq_trans Eb (eq_sym Er)))].
    cbn [sign_text app List.length] in *. apply Nat.add_le_mono_l. apply Tail. congruence.
  - destruct neg.
    + destruct ip' as [|y ip'].
      * destruct frac' as [f'|]; [|cbn [frac_text sign_text List.length Nat.add]; apply Nat.le_0_l]. exfalso. cbn [sign_text app frac_text] in Er. congruence.
      * exfalso. cbn [sign_text app forallb] in *. assert (y = 45) by congruence. subst y. discriminate Dip'.
    + cbn [sign_text app List.length] in *. apply Nat.add_le_mono_l. apply Tail. congruence.
Qed.
Lemma amount_left_range s : - 2 ^ 63 <= amount_left s < 2 ^ 63.
Proof.
  destruct (amount_left_spec s) as [(p & q & _ & (k & neg & ip & frac & _ & _ & _ & ->) & _)|[-> _]]; [|lia]. apply to_signed64. apply Z.mod_pos_bound. lia.
Qed.

(** ** Dates *)
Lemma second_text_len x h mi s : List.length (second_text x h mi s) = 19%nat.
Proof. destruct x as [[y m] d]. unfold second_text. rewrite !app_length, !decn_length. reflexivity. Qed.
Lemma seconds_left_spec m old s : (forall w, string_to_utc_seconds m s <> Undef w) -> longest (date_text m) old s (seconds_left m old s).
Proof.
  intros NU. unfold seconds_left.
  assert (One : forall p z, date_text m p z -> exists y mo d h mi sec, 0 <= y < 10000 /\ digits2 mo /\ digits2 d /\ digits2 h /\ digits2 mi /\ digits2 sec /\ p = second_text (y, mo, d) h mi sec /\ utc_seconds m y mo d h mi sec = Ok z).
  { intros p z [L H]. unfold time_point_sec_from_json_string, string_to_utc_seconds, string_to_utc_seconds_at in H.
    destruct (parse_fields p) as [[[[[[[y mo] d] h] mi] sec] r]|] eqn:Pf; [|discriminate].
    apply parse_fields_spec in Pf as (R1 & R2 & R3 & R4 & R5 & R6 & Ep).
    assert (L2 : List.length (second_text (y, mo, d) h mi sec) = 19%nat) by (apply second_text_len).
    assert (r = []) as ->. { rewrite Ep, app_length, L2 in L. destruct r; [reflexivity|cbn in L; lia]. }
    destruct (utc_seconds m y mo d h mi sec) as [x|e|w] eqn:Ut; try discriminate. cbn [bind eat_fraction option_map fst] in H. assert (x = z) by congruence. subst x.
    rewrite app_nil_r in Ep. exists y, mo, d, h, mi, sec. auto 10. }
  destruct (parse_fields s) as [[[[[[[y mo] d] h] mi] sec] r]|] eqn:Pf.
  - pose proof Pf as Pf'. apply parse_fields_spec in Pf' as (R1 & R2 & R3 & R4 & R5 & R6 & Ep).
    destruct (utc_seconds m y mo d h mi sec) as [x|e|w] eqn:Ut.
    + left. exists (second_text (y, mo, d) h mi sec), r. split; [exact Ep|]. assert (L2 : List.length (second_text (y, mo, d) h mi sec) = 19%nat) by (apply second_text_len).
      split.
      * split; [exact L2|]. unfold time_point_sec_from_json_string, string_to_utc_seconds, string_to_utc_seconds_at.
        rewrite (proj2 (parse_fields_spec _ y mo d h mi sec [])) by (repeat (split; [assumption|]); now rewrite app_nil_r). rewrite Ut. reflexivity.
      * intros p' q' z' _ [L' _]. lia.
    + exfalso. unfold utc_seconds in Ut. apply (fun H => H) in Ut. unfold int32_op in Ut. destruct (fits_s 32 _) in Ut; [discriminate|]. destruct m; discriminate.
    + exfalso. apply (NU w). unfold string_to_utc_seconds, string_to_utc_seconds_at. rewrite Pf, Ut. reflexivity.
  - right. split; [reflexivity|]. intros p q z Es D. apply One in D as (y & mo & d & h & mi & sec & R1 & R2 & R3 & R4 & R5 & R6 & -> & _).
    rewrite (proj2 (parse_fields_spec s y mo d h mi sec q)) in Pf by (repeat (split; [assumption|]); exact Es). discriminate.
Qed.
Lemma seconds_left_range m old s : 0 <= old < 2 ^ 32 -> 0 <= seconds_left m old s < 2 ^ 32.
Proof.
  intros H. unfold seconds_left. destruct (parse_fields s) as [[[[[[[y mo] d] h] mi] sec] r]|]; [|exact H].
  destruct (utc_seconds m y mo d h mi sec) as [x|e|w] eqn:Ut; [|exact H|exact H]. unfold utc_seconds in Ut. apply bind_Ok in Ut as (p & _ & Ut).
  assert (x = u32 (p + h * 3600 + mi * 60 + sec)) by congruence. subst x. apply u32_range.
Qed.

(** ** Bytes *)
Lemma unhex_left_spec : forall s, longest hex_text [] s (unhex_left s).
Proof.
  intros s. left. revert s. apply (two_step (fun s => exists p q, s = p ++ q /\ hex_text p (unhex_left s) /\
    forall p' q' a', s = p' ++ q' -> hex_text p' a' -> (List.length p' <= List.length p)%nat)).
  - exists [], []. split; [reflexivity|]. split; [now repeat split|]. intros [|x p'] q' a' H _; [cbn; lia|discriminate].
  - intros a. exists [], [a]. split; [reflexivity|]. split; [now repeat split|]. intros [|x [|y p']] q' a' H [Ev _]; [cbn; lia|discriminate Ev|discriminate H].
  - intros h l s (p & q & -> & (Ev & Hx & Q) & Mx). cbn [unhex_left]. rewrite !get_digit_spec.
    destruct (is_hex_digit h) eqn:Hh; [destruct (is_hex_digit l) eqn:Hl|].
    + exists (h :: l :: p), q. split; [reflexivity|]. split.
      * split; [exact Ev|]. split; [cbn [forallb]; now rewrite Hh, Hl, Hx|]. cbn [pairs_value]. rewrite Q. f_equal. apply lor_nibbles; now apply digit_value_range.
      * intros [|x [|y p']] q' a' H (Ev' & Hx' & _); [cbn; lia|discriminate Ev'|]. cbn [app forallb List.length] in *.
        apply andb_prop in Hx' as [_ Hx']. apply andb_prop in Hx' as [_ Hx']. apply le_n_S, le_n_S. apply (Mx p' q' (pairs_value p')); [congruence|]. now repeat split.
    + exists [], (h :: l :: p ++ q). split; [reflexivity|]. split; [now repeat split|].
      intros [|x [|y p']] q' a' H (Ev' & Hx' & _); [cbn; lia|discriminate Ev'|]. exfalso. cbn [app forallb] in *. assert (y = l) by congruence. subst y.
      rewrite Hl in Hx'. rewrite andb_comm in Hx'. discriminate.
    + exists [], (h :: l :: p ++ q). split; [reflexivity|]. split; [now repeat split|].
      intros [|x [|y p']] q' a' H (Ev' & Hx' & _); [cbn; lia|discriminate Ev'|]. exfalso. cbn [app forallb] in *. assert (x = h) by congruence. subst x.
      rewrite Hh in Hx'. discriminate.
Qed.
Lemma pairs_value_bytes : forall s, forallb is_hex_digit s = true -> bytes_ok (pairs_value s).
Proof.
  apply (two_step (fun s => forallb is_hex_digit s = true -> bytes_ok (pairs_value s))); [constructor|constructor|].
  intros h l s IH H. cbn [forallb pairs_value] in *. apply andb_prop in H as [Hh H]. apply andb_prop in H as [Hl H]. apply digit_value_range in Hh, Hl.
  constructor; [unfold is_byte; lia|]. now apply IH.
Qed.
Lemma unhex_left_bytes s : bytes_ok (unhex_left s).
Proof. destruct (unhex_left_spec s) as [(p & q & _ & (_ & H & ->) & _)|[-> _]]; [now apply pairs_value_bytes|constructor]. Qed.

(** ** All of them *)
Definition parses_in_range (pf : nat -> bytes -> Z) : Prop := forall n s, n = 4%nat \/ n = 8%nat -> 0 <= pf n s < 2 ^ (8 * Z.of_nat n).
Ltac int_obj := apply OInt; apply int_range_conv; [cbv; tauto|]; apply int_left_range; cbv; tauto.
Lemma scalar_left_object E pf b old s : parses_in_range pf -> object key_env (scalar_ty b) old -> object key_env (scalar_ty b) (scalar_left E pf b old s).
Proof.
  intros Hp H. destruct b; cbn [scalar_left scalar_ty] in *; try exact H; try int_obj.
  - apply OVaruint. pose proof (int_left_range false 4 s ltac:(cbv; tauto)) as R. unfold tmin, tmax, tbits in R. change (8 * Z.of_nat 4) with 32 in R. lia.
  - apply OVarint. pose proof (int_left_range true 4 s ltac:(cbv; tauto)) as R. unfold tmin, tmax, tbits in R. change (8 * Z.of_nat 4 - 1) with 31 in R. lia.
  - destruct s; [exact H|]. apply OFloat; [auto|]. apply Hp. auto.
  - destruct s; [exact H|]. apply OFloat; [auto|]. apply Hp. auto.
  - inversion H as [| | | | | | | | | | | | | | | | | |? ? ? H1|]; subst. inversion H1 as [? ? z R| | | | | | | | | | | | | | | | | | |]; subst. apply OWrap, OInt. apply fits_u32. apply seconds_left_range.
    unfold int_ok, fits_u in R. change (8 * Z.of_nat 4) with 32 in R. lia.
  - inversion H as [| | | | | |d Hd| | | | | | | | | | | | |]; subst. apply OStream. unfold bytes_left. destruct (Nat.even _); [apply unhex_left_bytes|exact Hd].
  - inversion H as [| | | | | | | | | | | | | | | | | |? ? ? H1|]; subst. inversion H1 as [? ? z R| | | | | | | | | | | | | | | | | | |]; subst. apply OWrap, OInt. apply fits_u64. apply symbol_left_range.
    unfold int_ok, fits_u in R. change (8 * Z.of_nat 8) with 64 in R. lia.
  - apply OWrap, OInt. apply fits_u64. apply code_left_range.
  - inversion H as [| | | | | | | | | | | | | | | |ts l F| | |]; subst. inversion F as [|? x ? l1 F1 F2]; subst. inversion F2 as [|? y ? l2 F3 F4]; subst. inversion F4; subst.
    apply OTuple. constructor; [|auto]. apply OInt. apply fits_s64. apply amount_left_range.
Qed.
Lemma scalar_left_after E pf b old s e : object key_env (scalar_ty b) old -> scalar_from_text E b s = Err e ->
  scalar_after (ov E) pf b old s (scalar_left E pf b old s).
Proof.
  intros H Er. destruct b; cbn [scalar_left scalar_after]; try reflexivity;
    try (eexists; split; [reflexivity|]; apply int_left_spec; cbv; tauto).
  - destruct s; [left; auto|right; split; [discriminate|reflexivity]].
  - destruct s; [left; auto|right; split; [discriminate|reflexivity]].
  - cbn [scalar_ty] in H. inversion H as [| | | | | | | | | | | | | | | | | |? ? ? H1|]; subst. inversion H1 as [? ? z R| | | | | | | | | | | | | | | | | | |]; subst. exists z. eexists. split; [reflexivity|]. split; [reflexivity|].
    apply seconds_left_spec. intros w Hw. cbn [scalar_from_text] in Er. unfold time_point_sec_from_json_string in Er. rewrite Hw in Er. discriminate.
  - cbn [scalar_ty] in H. inversion H as [| | | | | |d Hd| | | | | | | | | | | | |]; subst. unfold bytes_left. split; intros Ev; rewrite Ev; [reflexivity|].
    eexists. split; [reflexivity|]. apply unhex_left_spec.
  - cbn [scalar_ty] in H. inversion H as [| | | | | | | | | | | | | | | | | |? ? ? H1|]; subst. inversion H1 as [? ? z R| | | | | | | | | | | | | | | | | | |]; subst. destruct (symbol_left_spec z s) as [S1 S2]. split.
    + intros d r Es Nd Dd. rewrite (S1 d r Es Nd Dd). eexists. split; [reflexivity|]. apply code_left_spec.
    + intros K. rewrite (S2 K). reflexivity.
  - eexists. split; [reflexivity|]. apply code_left_spec.
  - cbn [scalar_ty] in H. inversion H as [| | | | | | | | | | | | | | | |ts l F| | |]; subst. inversion F as [|? x ? l1 F1 F2]; subst. inversion F2 as [|? y ? l2 F3 F4]; subst. inversion F4; subst.
    exists x, y. eexists. split; [reflexivity|]. split; [reflexivity|]. apply amount_left_spec.
Qed.
