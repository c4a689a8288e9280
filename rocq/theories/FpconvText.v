(** * FpconvText: the text written by emit_digits (proofs) *)
From Coq Require Import QArith Qabs Qpower Lqa.
From Verif Require Import Base Json JsonSpec Fpconv FpconvFacts FpconvSpec FpconvReal JsonStrFacts.
Open Scope Z_scope.

Lemma digits_val_snoc l c : digits_val (l ++ [c]) = digits_val l * 10 + (c - 48).
Proof. unfold digits_val. now rewrite fold_left_app. Qed.
Lemma digits_val_rev ds : digits_val (rev ds) = dnum ds.
Proof. induction ds as [|d ds IH]; [reflexivity|]. cbn [rev dnum]. rewrite digits_val_snoc, IH. lia. Qed.
Lemma digits_val_zeros l n : digits_val (l ++ repeat 48 n) = digits_val l * 10 ^ Z.of_nat n.
Proof.
  revert l. induction n as [|n IH]; intros l; [cbn [repeat]; rewrite app_nil_r; lia|]. cbn [repeat]. change (48 :: repeat 48 n) with ([48] ++ repeat 48 n). rewrite app_assoc, IH, digits_val_snoc. rewrite Nat2Z.inj_succ, Z.pow_succ_r by lia. lia.
Qed.
Lemma digits_val_lead0 n l : digits_val (repeat 48 n ++ l) = digits_val l.
Proof.
  unfold digits_val. rewrite fold_left_app. f_equal. induction n as [|n IH]; [reflexivity|]. exact IH.
Qed.
Lemma zeros_digits n : digits (repeat 48 n).
Proof. unfold digits. apply Forall_forall. intros x Hx. apply repeat_spec in Hx. lia. Qed.
Lemma rev_lead : forall ds, Forall dig ds -> lead ds -> ds <> [] -> exists c r, rev ds = c :: r /\ 49 <= c <= 57 /\ digits r.
Proof.
  induction ds as [|d ds IH]; intros F L N; [contradiction|]. apply Forall_cons_iff in F as [Fd F]. unfold dig in Fd. destruct ds as [|d' ds].
  - cbn [lead] in L. exists d, []. split; [reflexivity|]. split; [lia|constructor].
  - destruct (IH F L ltac:(discriminate)) as (c & r & E & C & D). exists c, (r ++ [d]). split; [change (rev (d :: d' :: ds)) with (rev (d' :: ds) ++ [d]); rewrite E; reflexivity|]. split; [exact C|].
    apply Forall_app. split; [exact D|]. constructor; [lia|constructor].
Qed.

Definition exp_text (x : Z) : bytes :=
  let cent := if 99 <? x then x / 100 else 0 in
  let x' := x - cent * 100 in
  let dec := if 9 <? x' then x' / 10 else 0 in
  (if 99 <? x then [cent + 48] else []) ++ (if 9 <? x' then [dec + 48] else if negb (cent =? 0) then [48] else []) ++ [Z.rem (x' - dec * 10) 10 + 48].
Lemma exp_text_spec x : 0 <= x <= 999 -> digits (exp_text x) /\ digits_val (exp_text x) = x /\ exp_text x <> [] /\ (List.length (exp_text x) <= 3)%nat.
Proof.
  intros H. unfold exp_text. cbv zeta. destruct (Z.ltb_spec 99 x) as [A|A].
  - assert (C : 1 <= x / 100 <= 9) by (split; [apply Z.div_le_lower_bound; lia|apply Z.lt_succ_r, Z.div_lt_upper_bound; lia]).
    pose proof (Z.div_mod x 100 ltac:(lia)) as D. pose proof (Z.mod_pos_bound x 100 ltac:(lia)) as B. set (c := x / 100) in *. set (r := x mod 100) in *. replace (x - c * 100) with r by lia. clearbody c r.
    destruct (Z.eqb_spec c 0); [lia|]. cbn [negb]. destruct (Z.ltb_spec 9 r) as [E|E].
    + assert (C2 : 1 <= r / 10 <= 9) by (split; [apply Z.div_le_lower_bound; lia|apply Z.lt_succ_r, Z.div_lt_upper_bound; lia]).
      pose proof (Z.div_mod r 10 ltac:(lia)) as D2. pose proof (Z.mod_pos_bound r 10 ltac:(lia)) as B2. set (d := r / 10) in *. set (z := r mod 10) in *. replace (r - d * 10) with z by lia. clearbody d z. rewrite (Z.rem_small z 10) by lia.
      cbn [app List.length]. split; [repeat (constructor; [lia|]); constructor|]. split; [unfold digits_val; cbn [fold_left]; lia|]. split; [discriminate|lia].
    + rewrite Z.mul_0_l, Z.sub_0_r. rewrite (Z.rem_small r 10) by lia. cbn [app List.length]. split; [repeat (constructor; [lia|]); constructor|]. split; [unfold digits_val; cbn [fold_left]; lia|]. split; [discriminate|lia].
  - rewrite Z.mul_0_l, Z.sub_0_r. destruct (Z.ltb_spec 9 x) as [E|E].
    + assert (C2 : 1 <= x / 10 <= 9) by (split; [apply Z.div_le_lower_bound; lia|apply Z.lt_succ_r, Z.div_lt_upper_bound; lia]).
      pose proof (Z.div_mod x 10 ltac:(lia)) as D2. pose proof (Z.mod_pos_bound x 10 ltac:(lia)) as B2. set (d := x / 10) in *. set (z := x mod 10) in *. replace (x - d * 10) with z by lia. clearbody d z. rewrite (Z.rem_small z 10) by lia.
      cbn [app List.length]. split; [repeat (constructor; [lia|]); constructor|]. split; [unfold digits_val; cbn [fold_left]; lia|]. split; [discriminate|lia].
    + cbn [Z.eqb negb]. rewrite Z.mul_0_l, Z.sub_0_r. rewrite (Z.rem_small x 10) by lia. cbn [app List.length]. split; [repeat (constructor; [lia|]); constructor|]. split; [unfold digits_val; cbn [fold_left]; lia|]. split; [discriminate|lia].
Qed.

Lemma exponent_e x : 0 <= Z.abs x <= 999 ->
  exponent ([101; if x <? 0 then 45 else 43] ++ exp_text (Z.abs x)) = x.
Proof.
  intros H. destruct (exp_text_spec (Z.abs x) H) as (_ & V & _). unfold exponent. cbn [app]. destruct (Z.ltb_spec x 0) as [N|N].
  - rewrite Z.eqb_refl, V. lia.
  - change (43 =? 45) with false. change (43 =? 43) with true. cbv iota. rewrite V. lia.
Qed.
Lemma val_app i f k z : k - Z.of_nat (List.length f) = z -> (inject_Z (digits_val (i ++ f)) * 10 ^ (k - Z.of_nat (List.length f)) == inject_Z (digits_val (i ++ f)) * 10 ^ z)%Q.
Proof. intros ->. reflexivity. Qed.
Definition claim (t dg : bytes) (K : Z) : Prop :=
  (exists i f e, number_parts t [] i f e /\ exponent_fits i f e /\ (number_value [] i f e == inject_Z (digits_val dg) * 10 ^ K)%Q).
Lemma sci_claim c r K x : 49 <= c <= 57 -> digits r -> x = K + Z.of_nat (List.length r) -> Z.abs x <= 999 -> x <= 308 ->
  claim ([c] ++ (if 1 <? 1 + Z.of_nat (List.length r) then [46] ++ r else []) ++ [101; if x <? 0 then 45 else 43] ++ exp_text (Z.abs x)) (c :: r) K.
Proof.
  intros Hc Hr Ex Hx H3. destruct (exp_text_spec (Z.abs x) ltac:(lia)) as (XD & XV & XN & XL).
  exists [c], (if 1 <? 1 + Z.of_nat (List.length r) then [46] ++ r else []), ([101; if x <? 0 then 45 else 43] ++ exp_text (Z.abs x)).
  assert (T : tl (if 1 <? 1 + Z.of_nat (List.length r) then [46] ++ r else []) = r).
  { destruct (Z.ltb_spec 1 (1 + Z.of_nat (List.length r))); [reflexivity|]. destruct r; [reflexivity|cbn [List.length] in *; lia]. }
  split; [|split].
  - split; [reflexivity|]. split; [left; reflexivity|]. split; [right; exists c, []; split; [reflexivity|]; split; [exact Hc|constructor]|]. split.
    + destruct (Z.ltb_spec 1 (1 + Z.of_nat (List.length r))) as [L|L]; [|left; reflexivity]. right. exists r. split; [reflexivity|]. split; [|exact Hr]. intros ->. cbn [List.length] in L. lia.
    + right. exists 101, [if x <? 0 then 45 else 43], (exp_text (Z.abs x)). split; [reflexivity|]. split; [left; reflexivity|]. split; [|split; [exact XN|exact XD]]. destruct (x <? 0); [right; right; reflexivity|right; left; reflexivity].
  - intros c0 sg d E S D NS. rewrite T. destruct (Z.ltb_spec x 0) as [N|N].
    + destruct S as [->|[->| ->]].
      * cbn [app] in E. injection E as _ E. subst d. apply Forall_inv in D. lia.
      * cbn [app] in E. discriminate E.
      * contradiction.
    + destruct S as [->|[->| ->]].
      * cbn [app] in E. injection E as _ E. subst d. apply Forall_inv in D. lia.
      * cbn [app] in E. injection E as _ E. rewrite <- E, XV. pose proof (kept_digits_pos [c] r). lia.
      * contradiction.
  - unfold number_value. rewrite T. rewrite (exponent_e x) by lia. cbn [app]. rewrite Ex. replace (K + Z.of_nat (List.length r) - Z.of_nat (List.length r)) with K by lia. reflexivity.
Qed.
Definition sci_text (dg : bytes) (K : Z) (neg : bool) : bytes :=
  let m := Z.of_nat (List.length dg) in
  let n := Z.min m (18 - (if neg then 1 else 0)) in
  firstn 1 dg ++ (if 1 <? n then str "." ++ firstn (Z.to_nat (n - 1)) (skipn 1 dg) else []) ++ [101; if K + n - 1 <? 0 then 45 else 43] ++ exp_text (Z.abs (K + m - 1)).
Lemma noexp i f : exponent_fits i f [].
Proof. intros e0 sg d X. discriminate X. Qed.

(** The text stands for the digits times the power of ten. *)
Lemma emit_spec dg K neg c r : dg = c :: r -> 49 <= c <= 57 -> digits r -> (List.length dg <= 17)%nat -> -400 <= K <= 400 -> K + Z.of_nat (List.length dg) - 1 <= 308 ->
  claim (emit_text dg K neg) dg K /\
  ((List.length (emit_text dg K neg) <= 23)%nat \/ List.length dg = 17%nat /\ K = 7 /\ List.length (emit_text dg K neg) = 24%nat).
Proof.
  intros Ed Hc Hr Hn HK Hx. unfold emit_text. cbv zeta. set (n := Z.of_nat (List.length dg)) in *.
  assert (En : n = 1 + Z.of_nat (List.length r)) by (unfold n; rewrite Ed; cbn [List.length]; lia).
  assert (Dg : digits dg) by (rewrite Ed; constructor; [lia|exact Hr]).
  assert (Sci : claim (sci_text dg K neg) dg K /\ (List.length (sci_text dg K neg) <= 23)%nat).
  { unfold sci_text. fold n. replace (Z.min n (18 - (if neg then 1 else 0))) with n by (destruct neg; lia). rewrite Ed. cbn [firstn skipn]. rewrite En.
    replace (Z.to_nat (1 + Z.of_nat (List.length r) - 1)) with (List.length r) by lia. rewrite firstn_all. split.
    - change (str ".") with [46]. apply (sci_claim c r K (K + (1 + Z.of_nat (List.length r)) - 1)); [exact Hc|exact Hr|lia|lia|lia].
    - destruct (exp_text_spec (Z.abs (K + (1 + Z.of_nat (List.length r)) - 1)) ltac:(lia)) as (_ & _ & _ & L). rewrite !app_length. cbn [List.length].
      destruct (1 <? 1 + Z.of_nat (List.length r)); [rewrite app_length; change (List.length (str ".")) with 1%nat|cbn [List.length]]; lia. }
  destruct (Z.leb_spec 0 K) as [K0|K0]; cbn [andb].
  1: destruct (Z.ltb_spec (Z.abs (K + n - 1)) (n + 7)) as [P|P].
  - (* plain integer *) split.
    + exists (dg ++ zeros K), [], []. split; [|split; [apply noexp|]].
      * split; [cbn [app]; rewrite ?app_nil_r; reflexivity|]. split; [left; reflexivity|]. split; [|split; left; reflexivity]. right. exists c, (r ++ zeros K). rewrite Ed. split; [reflexivity|]. split; [exact Hc|]. apply Forall_app. split; [exact Hr|apply zeros_digits].
      * unfold number_value. cbn [tl List.length exponent]. rewrite app_nil_r. unfold zeros. rewrite digits_val_zeros. rewrite Z2Nat.id by lia. rewrite inject_Z_mult. rewrite (qpow_Z 10 K) by lia. change (0 - Z.of_nat 0) with 0. change (10 ^ 0)%Q with 1%Q. assert (T10 : (inject_Z 10 == 10)%Q) by reflexivity. rewrite T10. ring.
    + rewrite app_length. unfold zeros. rewrite repeat_length. lia.
  - destruct (Z.ltb_spec K 0) as [|_]; [lia|]. cbn [andb]. destruct Sci as [S1 S2]. split; [exact S1|left; exact S2].
  - destruct (Z.ltb_spec K 0) as [_|]; [|lia]. cbn [andb]. destruct ((-7 <? K) || (Z.abs (K + n - 1) <? 4)) eqn:D; [|destruct Sci as [S1 S2]; split; [exact S1|left; exact S2]].
    assert (D' : -7 < K \/ Z.abs (K + n - 1) < 4) by (apply orb_prop in D as [D|D]; apply Z.ltb_lt in D; [left|right]; exact D). clear D. destruct (Z.leb_spec (n - Z.abs K) 0) as [O|O].
    + split.
      * exists [48], (46 :: zeros (- (n - Z.abs K)) ++ dg), []. split; [|split; [apply noexp|]].
        -- split; [cbn [app]; rewrite ?app_nil_r; reflexivity|]. split; [left; reflexivity|]. split; [left; reflexivity|]. split; [|left; reflexivity]. right. eexists. split; [reflexivity|]. split; [rewrite Ed; intros X; apply app_eq_nil in X as [_ X]; discriminate X|]. apply Forall_app. split; [apply zeros_digits|exact Dg].
        -- unfold number_value. cbn [tl exponent]. unfold zeros. change [48] with (repeat 48 1). rewrite !digits_val_lead0. rewrite app_length, repeat_length. replace (0 - Z.of_nat (Z.to_nat (- (n - Z.abs K)) + List.length dg)) with K by lia. reflexivity.
      * left. rewrite !app_length. unfold zeros. rewrite repeat_length. change (List.length (str "0.")) with 2%nat. lia.
    + set (o := Z.to_nat (n - Z.abs K)). assert (Lo : (1 <= o < List.length dg)%nat) by lia. split.
      * exists (firstn o dg), (46 :: skipn o dg), []. split; [|split; [apply noexp|]].
        -- split; [cbn [app]; rewrite ?app_nil_r; reflexivity|]. split; [left; reflexivity|]. split; [|split; [|left; reflexivity]].
           ++ right. rewrite Ed. destruct o as [|o]; [lia|]. cbn [firstn]. exists c, (firstn o r). split; [reflexivity|]. split; [exact Hc|]. apply Forall_forall. intros y Hy. apply (proj1 (Forall_forall _ r) Hr). rewrite <- (firstn_skipn o r). apply in_or_app. left. exact Hy.
           ++ right. exists (skipn o dg). split; [reflexivity|]. split; [intros X; apply (f_equal (@List.length Z)) in X; rewrite skipn_length in X; cbn [List.length] in X; lia|]. apply Forall_forall. intros y Hy. apply (proj1 (Forall_forall _ dg) Dg). rewrite <- (firstn_skipn o dg). apply in_or_app. right. exact Hy.
        -- unfold number_value. cbn [tl exponent]. rewrite firstn_skipn. rewrite skipn_length. replace (0 - Z.of_nat (List.length dg - o)) with K by lia. reflexivity.
      * left. rewrite !app_length, firstn_length, skipn_length. change (List.length (str ".")) with 1%nat. lia.
Qed.
