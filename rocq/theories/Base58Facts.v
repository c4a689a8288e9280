(** * Base58 facts: radix conversion *)
From Verif Require Import Base Base58.

(** ** Digit strings, least significant first, in a base [B] *)
Section Radix.
  Variable B : Z.
  Hypothesis HB : 2 <= B.
  Fixpoint lval (l : list Z) : Z := match l with [] => 0 | d :: l' => d + B * lval l' end.
  Definition digits_ok (l : list Z) : Prop := Forall (fun d => 0 <= d < B) l.
  (** No leading zero (the last element, if any, is not zero). *)
  Definition canonical (l : list Z) : Prop := digits_ok l /\ last l 1 <> 0.
  Lemma lval_nonneg l : digits_ok l -> 0 <= lval l.
  Proof. induction 1; cbn [lval]; nia. Qed.
  Lemma lval_zero l : canonical l -> lval l = 0 -> l = [].
  Proof.
    induction l as [|d l IH]; [auto|]. intros [H1 H2] Hz. inversion H1 as [|? ? Hd Hl]; subst. cbn [lval] in Hz.
    pose proof (lval_nonneg l Hl). assert (Zl : lval l = 0) by nia. assert (d = 0) by nia. subst d. exfalso.
    destruct l as [|e l]; [cbn in H2; lia|]. assert (e :: l = []) by (apply IH; [split; auto|auto]). discriminate.
  Qed.
  Lemma canonical_tail d l : canonical (d :: l) -> canonical l.
  Proof. intros [H1 H2]. inversion H1; subst. split; auto. destruct l; [cbn; lia|auto]. Qed.
  Lemma canonical_unique l1 : forall l2, canonical l1 -> canonical l2 -> lval l1 = lval l2 -> l1 = l2.
  Proof.
    induction l1 as [|d l1 IH]; intros l2 C1 C2 Ev.
    - symmetry. apply lval_zero; auto.
    - destruct l2 as [|e l2]; [apply lval_zero; auto|].
      cbn [lval] in Ev. destruct C1 as [D1 N1], C2 as [D2 N2]. inversion D1 as [|? ? Hd Dl1]; inversion D2 as [|? ? He Dl2]; subst.
      assert (X : d = e).
      { apply (f_equal (fun z => z mod B)) in Ev. rewrite (Z.mul_comm B), (Z.mul_comm B), !Z_mod_plus_full, !Z.mod_small in Ev by lia. exact Ev. }
      subst e. f_equal. apply IH; [eapply canonical_tail; split; eauto|eapply canonical_tail; split; eauto|nia].
  Qed.

  (** Multiply by [m] and add [c]. [tl c] are the digits of a final carry. *)
  Variable m : Z.
  Hypothesis Hm : 1 <= m.
  Variable tl : Z -> list Z.
  Hypothesis Htl : forall c, 0 <= c < m -> canonical (tl c) /\ lval (tl c) = c.
  Fixpoint mstep (c : Z) (l : list Z) : list Z :=
    match l with [] => tl c | d :: l' => ((d * m + c) mod B) :: mstep ((d * m + c) / B) l' end.
  Lemma carry_bound d c : 0 <= d < B -> 0 <= c < m -> 0 <= (d * m + c) / B < m.
  Proof. intros Hd Hc. split; [apply Z.div_pos; nia|apply Z.div_lt_upper_bound; nia]. Qed.
  Lemma mstep_lval l : forall c, digits_ok l -> 0 <= c < m -> lval (mstep c l) = m * lval l + c.
  Proof.
    induction l as [|d l IH]; intros c Hl Hc; cbn [mstep lval]; [destruct (Htl c Hc); lia|].
    inversion Hl; subst. rewrite IH by (auto using carry_bound). pose proof (Z.div_mod (d * m + c) B). nia.
  Qed.
  Lemma mstep_digits l : forall c, digits_ok l -> 0 <= c < m -> digits_ok (mstep c l).
  Proof.
    induction l as [|d l IH]; intros c Hl Hc; cbn [mstep]; [destruct (Htl c Hc) as [[? ?] ?]; auto|].
    inversion Hl; subst. constructor; [apply Z.mod_pos_bound; lia|]. apply IH; auto using carry_bound.
  Qed.
  Lemma last_cons_ne {A} (x : A) l d : l <> [] -> last (x :: l) d = last l d.
  Proof. destruct l; [congruence|reflexivity]. Qed.
  Lemma mstep_nonzero l : forall c, digits_ok l -> last l 1 <> 0 -> 0 <= c < m -> last (mstep c l) 1 <> 0.
  Proof.
    induction l as [|d l IH]; intros c Hl Hn Hc; cbn [mstep]; [destruct (Htl c Hc) as [[? ?] ?]; auto|].
    inversion Hl as [|? ? Hd Hl']; subst. pose proof (carry_bound d c Hd Hc) as Hc'.
    destruct (mstep ((d * m + c) / B) l) as [|y q] eqn:Eq.
    - assert (Z1 : lval (mstep ((d * m + c) / B) l) = 0) by (rewrite Eq; reflexivity).
      rewrite mstep_lval in Z1 by auto. pose proof (lval_nonneg l Hl'). assert (lval l = 0) by nia. assert (Q : (d * m + c) / B = 0) by nia.
      assert (l = []). { destruct l as [|y l]; auto. apply lval_zero; auto. split; auto. } subst l. cbn in Hn |- *.
      pose proof (Z.div_mod (d * m + c) B). nia.
    - rewrite last_cons_ne by discriminate. rewrite <- Eq. apply IH; auto. destruct l; [cbn; lia|auto].
  Qed.
  Lemma mstep_canonical l c : canonical l -> 0 <= c < m -> canonical (mstep c l).
  Proof. intros [H1 H2] Hc. split; [apply mstep_digits|apply mstep_nonzero]; auto. Qed.
  Definition conv (ds : list Z) (l : list Z) : list Z := fold_left (fun l d => mstep d l) ds l.
  Definition from_val (b a : Z) (ds : list Z) : Z := fold_left (fun a d => a * b + d) ds a.
  Lemma conv_spec ds : forall l, Forall (fun d => 0 <= d < m) ds -> canonical l ->
    canonical (conv ds l) /\ lval (conv ds l) = from_val m (lval l) ds.
  Proof.
    induction ds as [|d ds IH]; intros l Hd Hl; [split; [exact Hl|reflexivity]|].
    inversion Hd; subst. unfold conv, from_val. cbn [fold_left]. destruct (IH (mstep d l)) as [I1 I2]; auto using mstep_canonical.
    split; [exact I1|]. unfold conv in I2. rewrite I2, mstep_lval by (auto; apply Hl). unfold from_val. f_equal. ring.
  Qed.
End Radix.

Lemma canonical_nil B : canonical B [].
Proof. split; [constructor|cbn; lia]. Qed.
Lemma from_val_rev b l : forall a, from_val b a (rev l) = from_val b a (rev l).
Proof. reflexivity. Qed.
Lemma from_val_app b a l1 l2 : from_val b a (l1 ++ l2) = from_val b (from_val b a l1) l2.
Proof. apply fold_left_app. Qed.
Lemma from_val_lval b l : from_val b 0 (rev l) = lval b l.
Proof.
  induction l as [|d l IH]; [reflexivity|]. cbn [rev lval]. rewrite from_val_app, IH. unfold from_val at 1. cbn [fold_left]. ring.
Qed.
Lemma from_val_zeros b n l : from_val b 0 (repeat 0 n ++ l) = from_val b 0 l.
Proof. rewrite from_val_app. f_equal. induction n as [|n IH]; [reflexivity|]. cbn [repeat]. unfold from_val in *. cbn [fold_left]. exact IH. Qed.

(** ** The alphabet *)
Lemma map_spec c : is_byte c -> base58_map c = if c =? 0 then 58 else match index_of c base58_chars with Some i => i | None => -1 end.
Proof.
  intros H. apply Z.eqb_eq.
  exact (byte_sweep (fun c => base58_map c =? if c =? 0 then 58 else match index_of c base58_chars with Some i => i | None => -1 end) ltac:(vm_compute; reflexivity) c H).
Qed.
Lemma digit58_range c : is_byte c -> 0 <= digit58 c < 58.
Proof.
  intros H. assert (X : (0 <=? digit58 c) && (digit58 c <? 58) = true); [|lia].
  exact (byte_sweep (fun c => (0 <=? digit58 c) && (digit58 c <? 58)) ltac:(vm_compute; reflexivity) c H).
Qed.
Definition char58 (d : Z) : Z := nth (Z.to_nat d) base58_array 0.
Lemma char58_spec d : 0 <= d < 58 -> is_byte (char58 d) /\ is_base58 (char58 d) = true /\ digit58 (char58 d) = d /\ base58_map (char58 d) = d /\
   (char58 d =? 49) = (d =? 0).
Proof.
  intros H.
  assert (X : (d <? 58) = false \/ is_byteb (char58 d) && is_base58 (char58 d) && (digit58 (char58 d) =? d) && (base58_map (char58 d) =? d) && Bool.eqb (char58 d =? 49) (d =? 0) = true).
  { assert (Y := byte_sweep (fun d => negb (d <? 58) || is_byteb (char58 d) && is_base58 (char58 d) && (digit58 (char58 d) =? d) && (base58_map (char58 d) =? d) && Bool.eqb (char58 d =? 49) (d =? 0))
      ltac:(vm_compute; reflexivity) d ltac:(unfold is_byte; lia)). cbv beta in Y. apply Bool.orb_true_iff in Y as [Y|Y]; [left|right; exact Y]. destruct (d <? 58); auto. }
  destruct X as [X|X]; [lia|]. rewrite !Bool.andb_true_iff in X. destruct X as [[[[X1 X2] X3] X4] X5].
  apply is_byteb_spec in X1. apply Bool.eqb_prop in X5. repeat split; auto; try lia; apply X1.
Qed.
Lemma char_digit58 c : is_byte c -> is_base58 c = true -> char58 (digit58 c) = c.
Proof.
  intros H Hb.
  assert (Y := byte_sweep (fun c => negb (is_base58 c) || (char58 (digit58 c) =? c)) ltac:(vm_compute; reflexivity) c H). cbv beta in Y.
  rewrite Hb in Y. cbn [negb orb] in Y. lia.
Qed.
Lemma digit58_map c : is_byte c -> is_base58 c = true -> base58_map c = digit58 c.
Proof. intros H Hb. rewrite <- (char_digit58 c H Hb) at 1. apply char58_spec, digit58_range, H. Qed.
Lemma digit58_zero c : is_byte c -> is_base58 c = true -> (c =? 49) = (digit58 c =? 0).
Proof. intros H Hb. rewrite <- (char_digit58 c H Hb) at 1. apply char58_spec, digit58_range, H. Qed.

(** ** The model's loops are radix conversions *)
Definition tl256 (c : Z) : list Z := if c =? 0 then [] else [c mod 256].
Lemma tl256_ok c : 0 <= c < 58 -> canonical 256 (tl256 c) /\ lval 256 (tl256 c) = c.
Proof.
  intros H. unfold tl256. destruct (c =? 0) eqn:E; [split; [apply canonical_nil|cbn; lia]|].
  rewrite Z.mod_small by lia. split; [split; [repeat constructor; lia|cbn; lia]|cbn [lval]; lia].
Qed.
Lemma mul58_add_mstep c r : mul58_add c r = mstep 256 58 tl256 c r.
Proof. revert c. induction r as [|b r IH]; intros c; [reflexivity|]. cbn [mul58_add mstep]. cbv zeta. rewrite Z.shiftr_div_pow2 by lia. f_equal. apply IH. Qed.
Fixpoint push58 (fuel : nat) (c : Z) : list Z :=
  match fuel with O => [] | S f => if c =? 0 then [] else (c mod 58) :: push58 f (c / 58) end.
Definition tl58 (c : Z) : list Z := push58 6 c.
Lemma push58_ok fuel : forall c, 0 <= c < 58 ^ Z.of_nat fuel -> canonical 58 (push58 fuel c) /\ lval 58 (push58 fuel c) = c.
Proof.
  induction fuel as [|fuel IH]; intros c H; [cbn in H; cbn [push58 lval]; split; [apply canonical_nil|lia]|].
  cbn [push58]. destruct (c =? 0) eqn:E; [split; [apply canonical_nil|cbn [lval]; lia]|].
  rewrite Nat2Z.inj_succ, Z.pow_succ_r in H by lia.
  assert (Hq : 0 <= c / 58 < 58 ^ Z.of_nat fuel) by (split; [apply Z.div_pos; lia|apply Z.div_lt_upper_bound; lia]).
  destruct (IH _ Hq) as [[I1 I2] I3]. split; [|cbn [lval]; rewrite I3; pose proof (Z.div_mod c 58); lia].
  split; [constructor; auto; apply Z.mod_pos_bound; lia|].
  destruct (push58 fuel (c / 58)) as [|y q] eqn:Eq.
  - cbn [lval] in I3. cbn [last]. pose proof (Z.div_mod c 58). lia.
  - rewrite last_cons_ne by discriminate. exact I2.
Qed.
Lemma tl58_ok c : 0 <= c < 256 -> canonical 58 (tl58 c) /\ lval 58 (tl58 c) = c.
Proof. intros H. apply push58_ok. cbn. lia. Qed.
Lemma push_base58_char fuel : forall c, 0 <= c -> push_base58 fuel c = map char58 (push58 fuel c).
Proof.
  induction fuel as [|fuel IH]; intros c H; [reflexivity|]. cbn [push_base58 push58]. destruct (c =? 0); [reflexivity|].
  cbn [map]. rewrite Z.rem_mod_nonneg, Z.quot_div_nonneg by lia. rewrite IH by (apply Z.div_pos; lia). reflexivity.
Qed.
Lemma mul256_add_mstep r : forall c, digits_ok 58 r -> 0 <= c < 256 ->
  mul256_add c (map char58 r) = map char58 (mstep 58 256 tl58 c r).
Proof.
  induction r as [|d r IH]; intros c Hr Hc; [apply push_base58_char; lia|]. inversion Hr; subst.
  cbn [map mul256_add mstep]. cbv zeta. destruct (char58_spec d ltac:(auto)) as (_ & _ & _ & -> & _).
  rewrite Z.shiftl_mul_pow2 by lia. change (2 ^ 8) with 256.
  rewrite Z.rem_mod_nonneg, Z.quot_div_nonneg by lia. f_equal.
  apply IH; auto. split; [apply Z.div_pos; lia|apply Z.div_lt_upper_bound; lia].
Qed.
Lemma encode_conv bin : forall r, bytes_ok bin -> canonical 58 r ->
  fold_left (fun r b => mul256_add b r) bin (map char58 r) = map char58 (conv 58 256 tl58 bin r).
Proof.
  induction bin as [|b bin IH]; intros r Hb Hr; [reflexivity|]. inversion Hb; subst. cbn [fold_left]. unfold conv. cbn [fold_left].
  rewrite mul256_add_mstep by (auto; apply Hr). apply IH; auto. apply mstep_canonical; auto; try lia. apply tl58_ok.
Qed.
Lemma decode_conv s : forall r, bytes_ok s -> forallb is_base58 s = true ->
  base58_digits_in s r = Ok (conv 256 58 tl256 (map digit58 s) r).
Proof.
  induction s as [|c s IH]; intros r Hs Hb; [reflexivity|]. inversion Hs; subst. cbn [forallb] in Hb. apply andb_prop in Hb as [Hc Hb].
  cbn [base58_digits_in map]. cbv zeta. rewrite digit58_map by auto. pose proof (digit58_range c ltac:(auto)). unfold check.
  destruct (0 <=? digit58 c) eqn:E; [|lia]. cbn [bind]. rewrite mul58_add_mstep. apply IH; auto.
Qed.

(** ** Leading zeros *)
Lemma leading_split x s : exists t, s = repeat x (leading x s) ++ t /\ hd_error t <> Some x.
Proof.
  induction s as [|c s (t & E & H)]; [exists []; split; [reflexivity|discriminate]|]. cbn [leading]. destruct (c =? x) eqn:Ec.
  - exists t. split; auto. cbn [repeat app]. rewrite <- E. f_equal. lia.
  - exists (c :: s). split; [reflexivity|]. cbn. intros [= ->]. lia.
Qed.
Lemma leading_app x n t : hd_error t <> Some x -> leading x (repeat x n ++ t) = n.
Proof.
  intros H. induction n as [|n IH]; cbn [repeat app leading]; [|rewrite Z.eqb_refl; congruence].
  destruct t as [|c t]; [reflexivity|]. cbn [leading]. destruct (c =? x) eqn:E; auto. exfalso. apply H. cbn. f_equal. lia.
Qed.
Lemma hd_last l : l <> [] -> hd_error (rev l) = Some (last l 1).
Proof.
  intros H. destruct (exists_last H) as (l' & a & ->). rewrite rev_app_distr, last_last. reflexivity.
Qed.
Lemma hd_nonzero_canonical B t : digits_ok B t -> hd_error t <> Some 0 -> canonical B (rev t).
Proof.
  intros H1 H2. split; [apply Forall_rev; exact H1|]. destruct t as [|c t]; [cbn; lia|]. cbn [rev]. rewrite last_last. intros ->. apply H2. reflexivity.
Qed.
Lemma canonical_hd B l : canonical B l -> hd_error (rev l) <> Some 0.
Proof. intros [_ H]. destruct l as [|d l]; [discriminate|]. rewrite hd_last by discriminate. intros [= E]. auto. Qed.
Lemma rev_repeat {A} (x : A) n : rev (repeat x n) = repeat x n.
Proof.
  induction n as [|n IH]; [reflexivity|]. cbn [repeat rev]. rewrite IH. clear IH. induction n as [|n IH]; [reflexivity|]. cbn [repeat app]. now rewrite IH.
Qed.

Definition ds_of (bin : bytes) : list Z := conv 58 256 tl58 bin [].
Lemma ds_of_spec bin : bytes_ok bin -> canonical 58 (ds_of bin) /\ lval 58 (ds_of bin) = from_val 256 0 bin.
Proof. intros H. apply (conv_spec 58 ltac:(lia) 256 ltac:(lia) tl58 tl58_ok bin []); auto. apply canonical_nil. Qed.
Lemma bs_of_spec ds : Forall (fun d => 0 <= d < 58) ds ->
  canonical 256 (conv 256 58 tl256 ds []) /\ lval 256 (conv 256 58 tl256 ds []) = from_val 58 0 ds.
Proof. intros H. apply (conv_spec 256 ltac:(lia) 58 ltac:(lia) tl256 tl256_ok ds []); auto. apply canonical_nil. Qed.
Lemma encode_spec bin : bytes_ok bin -> binary_to_base58 bin = repeat 49 (leading 0 bin) ++ map char58 (rev (ds_of bin)).
Proof.
  intros H. unfold binary_to_base58. cbv zeta. change (@nil Z) with (map char58 []). rewrite encode_conv by (auto; apply canonical_nil).
  rewrite rev_app_distr, rev_repeat, map_rev. reflexivity.
Qed.
Lemma bytes_ok_chars l : digits_ok 58 l -> bytes_ok (map char58 l) /\ forallb is_base58 (map char58 l) = true /\ map digit58 (map char58 l) = l.
Proof.
  induction 1 as [|d l Hd Hl (I1 & I2 & I3)]; [repeat split; constructor|]. destruct (char58_spec d Hd) as (X1 & X2 & X3 & _). cbn [map forallb].
  split; [constructor; auto|]. split; [now rewrite X2, I2|]. now rewrite X3, I3.
Qed.
Lemma ones_ok n : bytes_ok (repeat 49 n) /\ forallb is_base58 (repeat 49 n) = true /\ map digit58 (repeat 49 n) = repeat 0 n.
Proof. induction n as [|n (I1 & I2 & I3)]; [repeat split; constructor|]. cbn [repeat forallb map]. rewrite I2, I3. split; [constructor; auto; unfold is_byte; lia|]. split; reflexivity. Qed.
Lemma hd_map_char l : digits_ok 58 l -> hd_error l <> Some 0 -> hd_error (map char58 l) <> Some 49.
Proof.
  intros H1 H2. destruct l as [|d l]; [discriminate|]. inversion H1; subst. cbn [map hd_error]. intros E. assert (E' : char58 d = 49) by congruence. apply H2. cbn [hd_error]. f_equal.
  destruct (char58_spec d ltac:(auto)) as (_ & _ & _ & _ & X). rewrite E' in X. lia.
Qed.

Lemma from_val_leading b l x : x = 0 -> from_val b 0 l = from_val b 0 (skipn (leading x l) l).
Proof.
  intros ->. destruct (leading_split 0 l) as (t & E & H). rewrite E at 1 3. rewrite from_val_zeros. f_equal.
  rewrite skipn_app, repeat_length, Nat.sub_diag, skipn_all2 by (rewrite repeat_length; lia). reflexivity.
Qed.
Lemma base58_roundtrip bin : bytes_ok bin ->
  bytes_ok (binary_to_base58 bin) /\ forallb is_base58 (binary_to_base58 bin) = true /\ base58_to_binary (binary_to_base58 bin) = Ok bin.
Proof.
  intros H. destruct (ds_of_spec bin H) as [C1 V1]. rewrite encode_spec by auto.
  assert (Dr : digits_ok 58 (rev (ds_of bin))) by (apply Forall_rev; apply C1).
  destruct (bytes_ok_chars _ Dr) as (K1 & K2 & K3). destruct (ones_ok (leading 0 bin)) as (O1 & O2 & O3).
  assert (T1 : bytes_ok (repeat 49 (leading 0 bin) ++ map char58 (rev (ds_of bin)))) by (apply bytes_ok_app; auto).
  assert (T2 : forallb is_base58 (repeat 49 (leading 0 bin) ++ map char58 (rev (ds_of bin))) = true) by (rewrite forallb_app, O2, K2; reflexivity).
  split; [exact T1|]. split; [exact T2|]. unfold base58_to_binary. rewrite decode_conv by auto. cbn [bind]. f_equal.
  rewrite leading_app by (apply hd_map_char; auto; eapply canonical_hd; eauto).
  rewrite map_app, O3, K3. rewrite rev_app_distr, rev_repeat.
  destruct (bs_of_spec (repeat 0 (leading 0 bin) ++ rev (ds_of bin))) as [C2 V2].
  { apply Forall_app. split; [apply Forall_forall; intros x Hx; apply repeat_spec in Hx; lia|exact Dr]. }
  rewrite from_val_zeros, from_val_lval, V1 in V2.
  destruct (leading_split 0 bin) as (t & Et & Ht). 
  assert (Dt : digits_ok 256 t). { rewrite Et in H. apply bytes_ok_app in H. apply H. }
  assert (U : conv 256 58 tl256 (repeat 0 (leading 0 bin) ++ rev (ds_of bin)) [] = rev t).
  { apply (canonical_unique 256 ltac:(lia)); auto; [apply hd_nonzero_canonical; auto|]. rewrite V2, <- from_val_lval, rev_involutive. rewrite Et at 1. apply from_val_zeros. }
  rewrite U, rev_involutive. symmetry. exact Et.
Qed.
Lemma leading_digits s : bytes_ok s -> forallb is_base58 s = true -> leading 49 s = leading 0 (map digit58 s).
Proof.
  induction 1 as [|c s Hc Hs IH]; [reflexivity|]. cbn [forallb]. intros Hb. apply andb_prop in Hb as [Hb1 Hb2]. cbn [leading map].
  rewrite digit58_zero by auto. destruct (digit58 c =? 0); [f_equal|]; auto.
Qed.
Lemma map_char_digit s : bytes_ok s -> forallb is_base58 s = true -> map char58 (map digit58 s) = s.
Proof.
  induction 1 as [|c s Hc Hs IH]; [reflexivity|]. cbn [forallb]. intros Hb. apply andb_prop in Hb as [Hb1 Hb2]. cbn [map]. rewrite char_digit58 by auto. f_equal; auto.
Qed.
Lemma map_digit_range s : bytes_ok s -> Forall (fun d => 0 <= d < 58) (map digit58 s).
Proof. induction 1; cbn [map]; constructor; auto using digit58_range. Qed.
Lemma decode_full s : bytes_ok s -> forallb is_base58 s = true -> exists b, base58_to_binary s = Ok b /\ bytes_ok b /\
  leading 0 b = leading 49 s /\ from_val 256 0 b = from_val 58 0 (map digit58 s) /\ binary_to_base58 b = s.
Proof.
  intros H Hb. unfold base58_to_binary. rewrite decode_conv by auto. cbn [bind]. eexists. split; [reflexivity|].
  destruct (bs_of_spec (map digit58 s) (map_digit_range s H)) as [C V].
  remember (conv 256 58 tl256 (map digit58 s) []) as r eqn:Er.
  rewrite rev_app_distr, rev_repeat.
  assert (K : bytes_ok (repeat 0 (leading 49 s) ++ rev r)).
  { apply bytes_ok_app. split; [apply Forall_forall; intros x Hx; apply repeat_spec in Hx; unfold is_byte; lia|]. apply Forall_rev. apply C. }
  assert (L : leading 0 (repeat 0 (leading 49 s) ++ rev r) = leading 49 s) by (apply leading_app; eapply canonical_hd; eauto).
  assert (W : from_val 256 0 (repeat 0 (leading 49 s) ++ rev r) = from_val 58 0 (map digit58 s)) by (rewrite from_val_zeros, from_val_lval; exact V).
  split; [exact K|]. split; [exact L|]. split; [exact W|].
  rewrite encode_spec, L by auto. destruct (ds_of_spec _ K) as [C2 V2]. rewrite W in V2.
  destruct (leading_split 0 (map digit58 s)) as (t & Et & Ht). rewrite <- leading_digits in Et by auto.
  assert (Dt : digits_ok 58 t). { pose proof (map_digit_range s H) as M. rewrite Et in M. apply Forall_app in M. apply M. }
  assert (U : ds_of (repeat 0 (leading 49 s) ++ rev r) = rev t).
  { apply (canonical_unique 58 ltac:(lia)); auto; [apply hd_nonzero_canonical; auto|]. rewrite V2, <- from_val_lval, rev_involutive, Et. apply from_val_zeros. }
  rewrite U, rev_involutive. rewrite <- (map_char_digit s H Hb) at 2. rewrite Et. rewrite map_app. f_equal.
  clear. generalize (leading 49 s). induction n as [|n IH]; [reflexivity|]. cbn [repeat map]. rewrite <- IH. reflexivity.
Qed.
(** Rejection: some character is neither in the alphabet nor NUL. *)
Lemma decode_errors_iff s : bytes_ok s ->
  base58_to_binary s = if forallb (fun c => is_base58 c || (c =? 0)) s then base58_to_binary s else Err E_expected_key.
Proof.
  intros H. destruct (forallb _ s) eqn:E; [reflexivity|]. unfold base58_to_binary.
  assert (G : forall r, base58_digits_in s r = Err E_expected_key).
  { induction H as [|c s Hc Hs IH]; [discriminate|]. intros r. cbn [forallb] in E. cbn [base58_digits_in]. cbv zeta. rewrite map_spec by auto. unfold check.
    unfold is_base58 in E. destruct (c =? 0) eqn:Ez.
    - rewrite Bool.orb_true_r in E. cbn [andb] in E. cbn [Z.leb Z.compare bind]. apply IH. exact E.
    - destruct (index_of c base58_chars) as [i|] eqn:Ei.
      + cbn [orb andb] in E. destruct (0 <=? i); cbn [bind]; [apply IH; exact E|reflexivity].
      + reflexivity. }
  now rewrite G.
Qed.
Lemma nul_digits_in s : forall r, bytes_ok s -> forallb (fun c => is_base58 c || (c =? 0)) s = true -> exists x, base58_digits_in s r = Ok x.
Proof.
  intros r H. revert r. induction H as [|c s Hc Hs IH]; intros r E; [exists r; reflexivity|]. cbn [forallb] in E. apply andb_prop in E as [E1 E2].
  cbn [base58_digits_in]. cbv zeta. rewrite map_spec by auto. unfold is_base58 in E1. destruct (c =? 0) eqn:Ez; [cbn [check Z.leb Z.compare bind]; apply IH; exact E2|].
  pose proof (digit58_range c Hc) as D. unfold digit58 in D. destruct (index_of c base58_chars) as [i|]; [|discriminate].
  unfold check. destruct (0 <=? i) eqn:Ei; [|lia]. cbn [bind]. apply IH. exact E2.
Qed.
