(** * AssetFacts: lemmas about symbols and assets *)
From Verif Require Import Base Decimal Name Asset.
Global Arguments is_digit : simpl never.
Global Arguments is_upper : simpl never.

(** ** Specification vocabulary *)
(** The text of a symbol code: one to seven letters A-Z. *)
Definition code_text (l : bytes) : Prop := (1 <= List.length l <= 7)%nat /\ forallb is_upper l = true.

(** The asset text grammar. *)
Definition spaces (k : nat) : bytes := repeat 32 k.
Definition sign_text (neg : bool) : bytes := if neg then [45] else [].
Definition frac_text (frac : option bytes) : bytes := match frac with None => [] | Some f => 46 :: f end.
Definition frac_digits (frac : option bytes) : bytes := match frac with None => [] | Some f => f end.
Definition asset_text (k1 : nat) (neg : bool) (ip : bytes) (frac : option bytes) (k2 : nat) (l : bytes) : bytes :=
  spaces k1 ++ sign_text neg ++ ip ++ frac_text frac ++ spaces k2 ++ l.

(** ** span *)
Definition stops (p : Z -> bool) (s : bytes) : Prop := match s with [] => True | c :: _ => p c = false end.
Lemma span_app p a b : forallb p a = true -> stops p b -> span p (a ++ b) = (a, b).
Proof.
  induction a as [|c a IH]; cbn [app forallb span].
  - intros _ H. destruct b as [|d b]; cbn in *; auto. now rewrite H.
  - rewrite andb_true_iff. intros [C A] H. now rewrite C, IH.
Qed.
Lemma span_spec p s : exists a b, span p s = (a, b) /\ s = a ++ b /\ forallb p a = true /\ stops p b.
Proof.
  induction s as [|c s (a & b & E & S & F & T)]; [exists [], []; repeat split|].
  cbn [span]. destruct (p c) eqn:P.
  - exists (c :: a), b. rewrite E. repeat split; cbn; [congruence|now rewrite P, F|auto].
  - exists [], (c :: s). repeat split; auto.
Qed.
Lemma all_eq_repeat s c : forallb (fun x => x =? c) s = true -> s = repeat c (List.length s).
Proof.
  induction s as [|x s IH]; cbn; auto. rewrite andb_true_iff. intros [E F]. apply Z.eqb_eq in E. subst. f_equal. auto.
Qed.
Lemma forallb_repeat (p : Z -> bool) c k : p c = true -> forallb p (repeat c k) = true.
Proof. intros H. induction k; cbn; auto. now rewrite H. Qed.

(** ** Symbol codes *)
Lemma upper_range c : is_upper c = true <-> 65 <= c <= 90.
Proof. unfold is_upper. lia. Qed.
Lemma upper_bytes l : forallb is_upper l = true -> bytes_ok l.
Proof.
  rewrite forallb_forall. intros H. apply Forall_forall. intros c Hc. specialize (H c Hc).
  apply upper_range in H. unfold is_byte. lia.
Qed.
Lemma code_loop_ok l : forall rest i r, forallb is_upper l = true -> stops is_upper rest ->
  0 <= i -> i + Z.of_nat (List.length l) <= 7 -> 0 <= r < 2 ^ (8 * i) ->
  symbol_code_loop (l ++ rest) i r = Some (r + 2 ^ (8 * i) * le_val l, i + Z.of_nat (List.length l), rest).
Proof.
  induction l as [|c l IH]; intros rest i r F S Hi Hl Hr; cbn [app symbol_code_loop List.length le_val].
  - replace (r + 2 ^ (8 * i) * 0) with r by lia. replace (i + Z.of_nat 0) with i by lia.
    destruct rest as [|d rest]; cbn in *; auto. now rewrite S.
  - cbn [forallb] in F. apply andb_true_iff in F. destruct F as [C F]. rewrite C.
    apply upper_range in C. cbn [List.length] in Hl. destruct (Z.leb_spec 7 i); [lia|].
    assert (P : 2 ^ (8 * (i + 1)) = 256 * 2 ^ (8 * i)).
    { replace (8 * (i + 1)) with (8 + 8 * i) by lia. rewrite Z.pow_add_r by lia. reflexivity. }
    assert (P64 : 2 ^ (8 * i) * 256 <= 2 ^ 64).
    { rewrite Z.mul_comm, <- P. apply Z.pow_le_mono_r; lia. }
    assert (0 < 2 ^ (8 * i)) by (apply Z.pow_pos_nonneg; lia).
    rewrite Z.mod_small by (rewrite Z.shiftl_mul_pow2 by lia; nia).
    rewrite lor_add_disjoint by lia.
    rewrite IH; auto; try lia; [|rewrite P; nia].
    rewrite P. f_equal. f_equal. f_equal; [ring|lia].
Qed.
Lemma code_loop_long l : forall rest i r, forallb is_upper l = true -> 0 <= i -> 7 < i + Z.of_nat (List.length l) ->
  i <= 7 -> symbol_code_loop (l ++ rest) i r = None.
Proof.
  induction l as [|c l IH]; intros rest i r F Hi Hl H7; cbn [app symbol_code_loop List.length] in *; [lia|].
  cbn [forallb] in F. apply andb_true_iff in F. destruct F as [C F]. rewrite C.
  destruct (Z.leb_spec 7 i); auto. apply IH; auto; lia.
Qed.

Lemma spaces_span k s : stops (fun c => c =? 32) s -> span (fun c => c =? 32) (spaces k ++ s) = (spaces k, s).
Proof. intros. apply span_app; auto. apply forallb_repeat. reflexivity. Qed.
Lemma upper_no_space l rest : forallb is_upper l = true -> l <> [] -> stops (fun c => c =? 32) (l ++ rest).
Proof.
  destruct l as [|c l]; [congruence|]. cbn. rewrite andb_true_iff. intros [C _] _. apply upper_range in C. lia.
Qed.

Lemma code_at_ok req k l rest : code_text l -> stops is_upper rest -> (req = false \/ rest = []) ->
  string_to_symbol_code_at req (spaces k ++ l ++ rest) = Some (le_val l, rest).
Proof.
  intros [L F] S R. unfold string_to_symbol_code_at.
  rewrite spaces_span by (apply upper_no_space; auto; destruct l; [cbn in L; lia|discriminate]).
  rewrite code_loop_ok by (auto; cbn; lia). cbn [Z.mul]. change (2 ^ 0) with 1.
  destruct (Z.eqb_spec (0 + Z.of_nat (List.length l)) 0); [lia|]. cbn [negb andb].
  replace (0 + 1 * le_val l) with (le_val l) by lia.
  destruct rest; auto. destruct R as [->|R]; [reflexivity|discriminate].
Qed.
Lemma code_at_inv req s v rest : string_to_symbol_code_at req s = Some (v, rest) ->
  exists k l, s = spaces k ++ l ++ rest /\ code_text l /\ v = le_val l /\ stops is_upper rest /\ (req = false \/ rest = []).
Proof.
  unfold string_to_symbol_code_at.
  destruct (span_spec (fun c => c =? 32) s) as (a & b & E & S & F & T). rewrite E.
  destruct (span_spec is_upper b) as (l & r & E' & S' & F' & T').
  destruct (Z_le_dec (Z.of_nat (List.length l)) 7) as [L|L].
  - rewrite S'. rewrite code_loop_ok by (auto; cbn; lia).
    destruct (Z.eqb_spec (0 + Z.of_nat (List.length l)) 0); [discriminate|]. cbn [negb andb].
    intros H. assert (X : Some (0 + 2 ^ (8 * 0) * le_val l, r) = Some (v, rest) /\ (req = false \/ r = [])).
    { destruct r; [split; auto|]. destruct req; [discriminate|]. auto. }
    destruct X as [X R]. injection X as <- <-.
    exists (List.length a), l. unfold spaces. rewrite <- all_eq_repeat by auto.
    split; [congruence|]. split; [split; [lia|auto]|]. split; [|auto].
    destruct (le_val l); reflexivity.
  - rewrite S'. rewrite code_loop_long by (auto; lia). discriminate.
Qed.

Lemma le_val_pos l : forallb is_upper l = true -> l <> [] -> 0 < le_val l.
Proof.
  destruct l as [|c l]; [congruence|]. cbn [forallb le_val]. rewrite andb_true_iff. intros [C F] _.
  apply upper_range in C. pose proof (le_val_bound l (upper_bytes l F)). lia.
Qed.
Lemma code_text_range l : code_text l -> 0 < le_val l < 2 ^ 56.
Proof.
  intros [L F]. split; [apply le_val_pos; auto; destruct l; [cbn in L; lia|discriminate]|].
  pose proof (le_val_bound l (upper_bytes l F)).
  assert (256 ^ Z.of_nat (List.length l) <= 256 ^ 7) by (apply Z.pow_le_mono_r; lia).
  change (256 ^ 7) with (2 ^ 56) in *. lia.
Qed.
Lemma code_to_string_loop l : forall fuel, forallb is_upper l = true -> (List.length l <= fuel)%nat ->
  symbol_code_to_string_loop fuel (le_val l) = l.
Proof.
  induction l as [|c l IH]; intros fuel F L; destruct fuel as [|fuel]; cbn [List.length] in L; try lia; auto.
  cbn [symbol_code_to_string_loop]. pose proof (le_val_pos (c :: l) F ltac:(discriminate)) as P.
  destruct (Z.ltb_spec 0 (le_val (c :: l))); [|lia].
  cbn [forallb] in F. apply andb_true_iff in F. destruct F as [C F]. apply upper_range in C.
  cbn [le_val]. change 255 with (Z.ones 8). rewrite Z.land_ones, Z.shiftr_div_pow2 by lia. change (2 ^ 8) with 256.
  rewrite (Z.mul_comm 256), Z.mod_add, Z.div_add by lia. rewrite Z.mod_small, Z.div_small by lia.
  f_equal. cbn [Z.add]. apply IH; auto. lia.
Qed.
Lemma code_to_string l : code_text l -> symbol_code_to_string (le_val l) = l.
Proof. intros [L F]. apply code_to_string_loop; auto. lia. Qed.

Lemma land255 v : Z.land v 255 = v mod 256.
Proof. change 255 with (Z.ones 8). now rewrite Z.land_ones by lia. Qed.
Lemma shr8 v : Z.shiftr v 8 = v / 256.
Proof. now rewrite Z.shiftr_div_pow2 by lia. Qed.

(** ** is_valid *)
Lemma tail_spec n : forall v, 0 <= v -> is_valid_tail n v = true <-> (v / 256) mod 256 ^ Z.of_nat n = 0.
Proof.
  induction n as [|n IH]; intros v Hv.
  - cbn. rewrite Z.mod_1_r. tauto.
  - cbn [is_valid_tail]. rewrite land255, shr8. rewrite Nat2Z.inj_succ, Z.pow_succ_r by lia.
    assert (0 < 256 ^ Z.of_nat n) by (apply Z.pow_pos_nonneg; lia).
    rewrite Z.rem_mul_r by lia.
    pose proof (Z.mod_pos_bound (v / 256) 256 ltac:(lia)).
    pose proof (Z.mod_pos_bound (v / 256 / 256) (256 ^ Z.of_nat n) ltac:(lia)).
    destruct (Z.eqb_spec ((v / 256) mod 256) 0) as [E|E]; cbn [negb].
    + rewrite IH by (apply Z.div_pos; lia). lia.
    + split; [discriminate|]. lia.
Qed.
Lemma valid_loop_spec n : forall v, 0 <= v < 256 ^ Z.of_nat (S n) ->
  is_valid_loop n v = true <->
  exists l top, forallb is_upper l = true /\ (List.length l <= n)%nat /\ (n = 0%nat \/ 1 <= List.length l)%nat /\
     0 <= top < 256 /\ (top = 0 \/ List.length l = n) /\ v = le_val l + top * 256 ^ Z.of_nat n.
Proof.
  induction n as [|n IH]; intros v Hv.
  - split; auto. intros _. exists [], v. change (256 ^ Z.of_nat 1) with 256 in Hv. repeat split; auto; cbn; lia.
  - cbn [is_valid_loop]. rewrite !land255, !shr8.
    pose proof (Z.div_mod v 256 ltac:(lia)) as DM. pose proof (Z.mod_pos_bound v 256 ltac:(lia)) as MB.
    assert (Hq : 0 <= v / 256 < 256 ^ Z.of_nat (S n)).
    { split; [apply Z.div_pos; lia|]. apply Z.div_lt_upper_bound; [lia|].
      rewrite (Nat2Z.inj_succ (S n)), Z.pow_succ_r in Hv by lia. lia. }
    specialize (IH (v / 256) Hq).
    assert (PS : 256 ^ Z.of_nat (S n) = 256 * 256 ^ Z.of_nat n) by (rewrite Nat2Z.inj_succ, Z.pow_succ_r by lia; reflexivity).
    assert (PP : 0 < 256 ^ Z.of_nat n) by (apply Z.pow_pos_nonneg; lia).
    destruct (is_upper (v mod 256)) eqn:U; cbn [negb].
    + destruct (Z.eqb_spec ((v / 256) mod 256) 0) as [Z0|Z0].
      * rewrite tail_spec by lia.
        pose proof (Z.div_mod (v / 256) 256 ltac:(lia)) as DM'.
        assert (Hqq : 0 <= v / 256 / 256 < 256 ^ Z.of_nat (S n)).
        { split; [apply Z.div_pos; lia|]. apply Z.div_lt_upper_bound; lia. }
        rewrite Z.mod_small by lia. split.
        -- intros E. exists [v mod 256], 0. cbn [forallb List.length le_val]. rewrite U.
           repeat split; auto; try lia.
        -- intros (l & top & F & L & L1 & Ht & T & E). destruct l as [|c l]; [cbn in L1; lia|].
           cbn [le_val forallb List.length] in *. apply andb_true_iff in F. destruct F as [C F]. apply upper_range in C.
           assert (Ev : v / 256 = le_val l + top * 256 ^ Z.of_nat n).
           { symmetry. apply Z.div_unique_pos with c; [lia|]. rewrite E, PS. ring. }
           destruct l as [|d l].
           ++ cbn [le_val] in Ev. destruct T as [T|T].
              ** subst top. rewrite Ev. reflexivity.
              ** cbn in T. injection T as T. subst n. cbn in Ev. rewrite Z.mul_1_r in Ev. cbn in Ev. 
                 rewrite Ev in Z0. rewrite Z.mod_small in Z0 by lia. subst top. rewrite Ev. reflexivity.
           ++ exfalso. cbn [forallb le_val List.length] in *. apply andb_true_iff in F. destruct F as [D F]. apply upper_range in D.
              destruct n as [|n]; [lia|]. rewrite Nat2Z.inj_succ, Z.pow_succ_r in Ev by lia.
              replace (d + 256 * le_val l + top * (256 * 256 ^ Z.of_nat n)) with (d + (le_val l + top * 256 ^ Z.of_nat n) * 256) in Ev by ring.
              rewrite Ev, Z.mod_add in Z0 by lia. rewrite Z.mod_small in Z0 by lia. lia.
      * rewrite IH. split.
        -- intros (l & top & F & L & L1 & Ht & T & E). exists (v mod 256 :: l), top.
           cbn [forallb List.length le_val]. rewrite U, F. repeat split; auto; try lia.
        -- intros (l & top & F & L & L1 & Ht & T & E). destruct l as [|c l]; [cbn in L1; lia|].
           cbn [le_val forallb List.length] in *. apply andb_true_iff in F. destruct F as [C F]. apply upper_range in C.
           assert (Ev : v / 256 = le_val l + top * 256 ^ Z.of_nat n).
           { symmetry. apply Z.div_unique_pos with c; [lia|]. rewrite E, PS. ring. }
           exists l, top. repeat split; auto; try lia.
           destruct n as [|n]; [auto|]. right. destruct l; [|cbn; lia]. exfalso.
           cbn [le_val List.length] in *. destruct T as [T|T]; [|lia]. subst top. rewrite Ev in Z0. cbn in Z0. lia.
    + split; [discriminate|]. intros (l & top & F & L & L1 & Ht & T & E). destruct l as [|c l]; [cbn in L1; lia|].
      cbn [le_val forallb List.length] in *. apply andb_true_iff in F. destruct F as [C F].
      assert (v mod 256 = c). { apply upper_range in C. rewrite E, PS.
        replace (c + 256 * le_val l + top * (256 * 256 ^ Z.of_nat n)) with (c + (le_val l + top * 256 ^ Z.of_nat n) * 256) by ring.
        rewrite Z.mod_add by lia. apply Z.mod_small. lia. }
      congruence.
Qed.
Lemma is_valid_spec v : 0 <= v < 2 ^ 64 ->
  symbol_code_is_valid v = true <->
  exists l top, code_text l /\ 0 <= top < 256 /\ (top = 0 \/ List.length l = 7%nat) /\ v = le_val l + top * 2 ^ 56.
Proof.
  intros Hv. unfold symbol_code_is_valid. rewrite valid_loop_spec by exact Hv.
  change (256 ^ Z.of_nat 7) with (2 ^ 56). unfold code_text.
  split; intros (l & top & H); exists l, top; intuition lia.
Qed.
Lemma is_valid56 v : 0 <= v < 2 ^ 56 -> symbol_code_is_valid v = true <-> exists l, code_text l /\ v = le_val l.
Proof.
  intros Hv. rewrite is_valid_spec by lia. split.
  - intros (l & top & C & Ht & T & E). exists l. split; auto. pose proof (code_text_range l C). nia.
  - intros (l & C & E). exists l, 0. repeat split; auto; lia || apply C.
Qed.

Lemma code_length_loop l : forall n k, forallb is_upper l = true -> 0 <= k -> k + Z.of_nat (List.length l) <= 8 -> (List.length l < n)%nat ->
  symbol_code_length_loop n (le_val l) k = k + Z.of_nat (List.length l).
Proof.
  induction l as [|c l IH]; intros n k F Hk L N; destruct n as [|n]; try (cbn in N; lia).
  - cbn. lia.
  - cbn [symbol_code_length_loop le_val List.length forallb] in *. apply andb_true_iff in F. destruct F as [C F].
    apply upper_range in C. rewrite land255, shr8, (Z.mul_comm 256), Z.mod_add, Z.div_add by lia.
    rewrite Z.mod_small, Z.div_small by lia. destruct (Z.eqb_spec c 0); [lia|]. destruct (Z.leb_spec k 7); [|lia]. cbn [negb andb Z.add].
    rewrite IH by (auto; lia). lia.
Qed.
Lemma code_length l : code_text l -> symbol_code_length (le_val l) = Z.of_nat (List.length l).
Proof. intros [L F]. unfold symbol_code_length. rewrite code_length_loop; auto; lia. Qed.

(** The checking constructor. *)
Lemma ctor_fold l : forallb is_upper l = true -> (List.length l <= 7)%nat ->
  mfold (fun value c =>
           let* _ := check (is_upper c) E_symbol_code_uppercase in
           Ok (Z.lor (Z.shiftl value 8 mod 2 ^ 64) c)) (rev l) 0 = Ok (le_val l).
Proof.
  induction l as [|c l IH]; intros F L; [reflexivity|]. cbn [rev forallb List.length] in *.
  apply andb_true_iff in F. destruct F as [C F]. rewrite mfold_app, IH by (auto; lia). cbn [bind mfold].
  rewrite C. cbn [check bind]. f_equal. apply upper_range in C. cbn [le_val].
  pose proof (le_val_bound l (upper_bytes l F)).
  assert (256 ^ Z.of_nat (List.length l) <= 256 ^ 6) by (apply Z.pow_le_mono_r; lia).
  change (256 ^ 6) with (2 ^ 48) in *.
  rewrite Z.mod_small by (rewrite Z.shiftl_mul_pow2 by lia; lia).
  rewrite Z.lor_comm, lor_add_disjoint by lia. lia.
Qed.
Lemma ctor_ok l : forallb is_upper l = true -> (List.length l <= 7)%nat -> symbol_code_ctor l = Ok (le_val l).
Proof.
  intros F L. unfold symbol_code_ctor. apply Nat.leb_le in L. rewrite L. cbn [check bind].
  apply ctor_fold; auto. now apply Nat.leb_le.
Qed.
Lemma ctor_inv s v : symbol_code_ctor s = Ok v -> forallb is_upper s = true /\ (List.length s <= 7)%nat /\ v = le_val s.
Proof.
  intros H. assert (X : forallb is_upper s = true /\ (List.length s <= 7)%nat).
  { unfold symbol_code_ctor in H. apply bind_Ok in H. destruct H as (u & C & H).
    unfold check in C. destruct (Nat.leb_spec (List.length s) 7); [|discriminate]. split; auto.
    clear C. assert (G : forall t a b, mfold (fun value c =>
           let* _ := check (is_upper c) E_symbol_code_uppercase in
           Ok (Z.lor (Z.shiftl value 8 mod 2 ^ 64) c)) t a = Ok b -> forallb is_upper t = true).
    { induction t as [|c t IH]; cbn [mfold forallb]; auto. intros a b X. apply bind_Ok in X. destruct X as (y & Y & X).
      apply bind_Ok in Y. destruct Y as (? & Y & _). unfold check in Y. destruct (is_upper c); [|discriminate]. eauto. }
    apply G in H. rewrite forallb_forall in *. intros x Hx. apply H. now apply in_rev in Hx. }
  destruct X as [F L]. rewrite ctor_ok in H by auto. injection H as <-. auto.
Qed.

(** ** Symbols *)
Lemma prec_loop s : forall a p f, forallb is_digit a = true -> stops is_digit s -> 0 <= p < 256 ->
  precision_loop (a ++ s) p f = ((p * 10 ^ Z.of_nat (List.length a) + dval a) mod 256, match a with [] => f | _ => true end, s).
Proof.
  induction a as [|c a IH]; intros p f F S Hp; cbn [app precision_loop].
  - cbn [List.length]. change (10 ^ Z.of_nat 0) with 1. change (dval []) with 0.
    rewrite Z.mul_1_r, Z.add_0_r, Z.mod_small by lia.
    destruct s as [|d s]; auto. cbn in S |- *. now rewrite S.
  - cbn [forallb] in F. apply andb_true_iff in F. destruct F as [C F]. rewrite C.
    rewrite IH by (auto; apply Z.mod_pos_bound; lia). rewrite dval_cons. cbn [List.length].
    f_equal. f_equal; [|destruct a; reflexivity].
    rewrite Nat2Z.inj_succ, Z.pow_succ_r by lia.
    rewrite <- Z.add_mod_idemp_l, Z.mul_mod_idemp_l, Z.add_mod_idemp_l by lia. f_equal. ring.
Qed.
Lemma pack_symbol code p : 0 <= code < 2 ^ 56 -> 0 <= p < 256 ->
  Z.lor (Z.shiftl code 8 mod 2 ^ 64) p = code * 256 + p.
Proof.
  intros Hc Hp. rewrite Z.mod_small by (rewrite Z.shiftl_mul_pow2 by lia; lia).
  rewrite Z.lor_comm, lor_add_disjoint by lia. change (2 ^ 8) with 256. lia.
Qed.
Lemma unpack_symbol code p : 0 <= p < 256 -> (code * 256 + p) mod 256 = p /\ (code * 256 + p) / 256 = code.
Proof.
  intros Hp. rewrite Z.add_comm, Z.mod_add, Z.div_add by lia. rewrite Z.mod_small, Z.div_small by lia. auto.
Qed.

Lemma symbol_at_ok req ds k l rest : forallb is_digit ds = true -> ds <> [] -> code_text l -> stops is_upper rest -> (req = false \/ rest = []) ->
  string_to_symbol_at req (ds ++ 44 :: spaces k ++ l ++ rest) = Some (le_val l * 256 + dval ds mod 256, rest).
Proof.
  intros F N C S R. unfold string_to_symbol_at. rewrite prec_loop; [|auto|reflexivity|lia].
  destruct ds as [|d ds]; [congruence|]. rewrite Z.eqb_refl.
  unfold string_to_symbol_prec. rewrite code_at_ok by auto.
  rewrite pack_symbol; [|pose proof (code_text_range l C); lia|apply Z.mod_pos_bound; lia].
  rewrite Z.mul_0_l, Z.add_0_l. reflexivity.
Qed.
Lemma symbol_at_inv req s v rest : string_to_symbol_at req s = Some (v, rest) ->
  exists ds k l, s = ds ++ 44 :: spaces k ++ l ++ rest /\ forallb is_digit ds = true /\ ds <> [] /\ code_text l /\
    v = le_val l * 256 + dval ds mod 256 /\ stops is_upper rest /\ (req = false \/ rest = []).
Proof.
  unfold string_to_symbol_at. destruct (span_spec is_digit s) as (ds & r & _ & E & F & T). rewrite E.
  rewrite prec_loop by (auto; lia).
  destruct ds as [|d ds]; [discriminate|]. destruct r as [|c r]; [discriminate|].
  destruct (Z.eqb_spec c 44); [|discriminate]. subst c. unfold string_to_symbol_prec.
  destruct (string_to_symbol_code_at req r) as [[code pos]|] eqn:A; [|discriminate].
  apply code_at_inv in A. destruct A as (k & l & Er & C & V & S & R). intros H.
  rewrite V, pack_symbol in H; [|pose proof (code_text_range l C); lia|apply Z.mod_pos_bound; lia].
  rewrite Z.mul_0_l, Z.add_0_l in H.
  assert (E1 : le_val l * 256 + dval (d :: ds) mod 256 = v) by congruence. assert (E2 : pos = rest) by congruence.
  subst pos. exists (d :: ds), k, l. rewrite Er. repeat split; auto; try apply C; discriminate.
Qed.

(** ** Assets *)
Lemma amt_loop s : forall a u, forallb is_digit a = true -> stops is_digit s -> 0 <= u < 2 ^ 64 ->
  amount_loop (a ++ s) u = ((u * 10 ^ Z.of_nat (List.length a) + dval a) mod 2 ^ 64, s).
Proof.
  induction a as [|c a IH]; intros u F S Hu; cbn [app amount_loop].
  - cbn [List.length]. change (10 ^ Z.of_nat 0) with 1. change (dval []) with 0.
    rewrite Z.mul_1_r, Z.add_0_r, Z.mod_small by lia.
    destruct s as [|d s]; auto. cbn in S |- *. now rewrite S.
  - cbn [forallb] in F. apply andb_true_iff in F. destruct F as [C F]. rewrite C.
    rewrite IH by (auto; apply Z.mod_pos_bound; lia). rewrite dval_cons. cbn [List.length].
    f_equal. rewrite Nat2Z.inj_succ, Z.pow_succ_r by lia.
    rewrite <- Z.add_mod_idemp_l, Z.mul_mod_idemp_l, Z.add_mod_idemp_l by lia. f_equal. ring.
Qed.
Lemma frac_loop s : forall a u p, forallb is_digit a = true -> stops is_digit s -> 0 <= u < 2 ^ 64 -> 0 <= p < 256 ->
  fraction_loop (a ++ s) u p = ((u * 10 ^ Z.of_nat (List.length a) + dval a) mod 2 ^ 64, (p + Z.of_nat (List.length a)) mod 256, s).
Proof.
  induction a as [|c a IH]; intros u p F S Hu Hp; cbn [app fraction_loop].
  - cbn [List.length]. change (10 ^ Z.of_nat 0) with 1. change (dval []) with 0.
    rewrite Z.mul_1_r, !Z.add_0_r, !Z.mod_small by lia.
    destruct s as [|d s]; auto. cbn in S |- *. now rewrite S.
  - cbn [forallb] in F. apply andb_true_iff in F. destruct F as [C F]. rewrite C.
    rewrite IH by (auto; apply Z.mod_pos_bound; lia). rewrite dval_cons. cbn [List.length].
    f_equal. f_equal.
    + rewrite Nat2Z.inj_succ, Z.pow_succ_r by lia.
      rewrite <- Z.add_mod_idemp_l, Z.mul_mod_idemp_l, Z.add_mod_idemp_l by lia. f_equal. ring.
    + rewrite Z.add_mod_idemp_l by lia. f_equal. lia.
Qed.

Definition signed_val (neg : bool) (n : Z) : Z := if neg then - n else n.
Lemma signed_amount (neg : bool) n :
  to_signed 64 (if neg then (- (n mod 2 ^ 64)) mod 2 ^ 64 else n mod 2 ^ 64) = wrap_s 64 (signed_val neg n).
Proof.
  unfold wrap_s, signed_val. destruct neg; auto. f_equal.
  rewrite <- Z.sub_0_l, Zminus_mod_idemp_r. reflexivity.
Qed.

Lemma stops_tail frac k2 l rest : code_text l -> 
  stops is_digit (frac_text frac ++ spaces k2 ++ l ++ rest) /\ stops is_digit (spaces k2 ++ l ++ rest) /\
  stops (fun c => c =? 46) (spaces k2 ++ l ++ rest).
Proof.
  intros [L F]. assert (X : stops is_digit (spaces k2 ++ l ++ rest) /\ stops (fun c => c =? 46) (spaces k2 ++ l ++ rest)).
  { destruct k2; cbn; [|split; reflexivity]. destruct l as [|c l]; [cbn in L; lia|]. cbn in F |- *.
    apply andb_true_iff in F. destruct F as [C _]. apply upper_range in C. unfold is_digit. lia. }
  destruct X. destruct frac; cbn; auto.
Qed.

Lemma asset_at_ok req k1 neg ip frac k2 l rest : forallb is_digit ip = true -> forallb is_digit (frac_digits frac) = true ->
  code_text l -> stops is_upper rest -> (req = false \/ rest = []) ->
  string_to_asset_at req (asset_text k1 neg ip frac k2 l ++ rest) =
    Some (wrap_s 64 (signed_val neg (dval (ip ++ frac_digits frac))),
          le_val l * 256 + Z.of_nat (List.length (frac_digits frac)) mod 256, rest).
Proof.
  intros Fi Ff C S R. unfold asset_text, string_to_asset_at. rewrite <- !app_assoc.
  destruct (stops_tail frac k2 l rest C) as (S1 & S2 & S3).
  assert (St : stops (fun c => c =? 32) (sign_text neg ++ ip ++ frac_text frac ++ spaces k2 ++ l ++ rest) \/
               neg = false /\ ip = [] /\ frac = None).
  { destruct neg; [left; reflexivity|]. destruct ip as [|c ip].
    - destruct frac; [left; reflexivity|right; auto].
    - left. cbn in Fi |- *. apply andb_true_iff in Fi. destruct Fi as [D _]. apply is_digit_range in D. lia. }
  assert (HS : exists k2', span (fun c => c =? 32) (spaces k1 ++ sign_text neg ++ ip ++ frac_text frac ++ spaces k2 ++ l ++ rest)
      = (spaces (k1 + (k2 - k2')), sign_text neg ++ ip ++ frac_text frac ++ spaces k2' ++ l ++ rest)).
  { destruct St as [St|(-> & -> & ->)].
    - exists k2. rewrite Nat.sub_diag, Nat.add_0_r. now apply spaces_span.
    - exists O. cbn [sign_text app frac_text]. rewrite app_assoc. unfold spaces. rewrite <- repeat_app, Nat.sub_0_r.
      apply spaces_span. cbn [repeat app]. destruct C as [L F]. apply upper_no_space; auto. destruct l; [cbn in L; lia|discriminate]. }
  destruct HS as (k2' & HS). rewrite HS. clear S1 S2 S3 St HS.
  destruct (stops_tail frac k2' l rest C) as (S1 & S2 & S3).
  assert (SG : asset_sign (sign_text neg ++ ip ++ frac_text frac ++ spaces k2' ++ l ++ rest) = (neg, ip ++ frac_text frac ++ spaces k2' ++ l ++ rest)).
  { destruct neg; [reflexivity|]. cbn [sign_text app].
    destruct ip as [|c ip].
    - cbn [app]. destruct frac; [reflexivity|]. cbn [frac_text app]. destruct k2'; [|reflexivity]. cbn [spaces repeat app].
      destruct C as [L F]. destruct l as [|c l]; [cbn in L; lia|]. cbn in F |- *. apply andb_true_iff in F. destruct F as [U _].
      apply upper_range in U. destruct (Z.eqb_spec c 45); [lia|reflexivity].
    - cbn in Fi |- *. apply andb_true_iff in Fi. destruct Fi as [D _]. apply is_digit_range in D.
      destruct (Z.eqb_spec c 45); [lia|reflexivity]. }
  rewrite SG.
  rewrite amt_loop by (auto; lia). rewrite Z.mul_0_l, Z.add_0_l.
  set (tail := spaces k2' ++ l ++ rest) in *.
  assert (FR : asset_frac (dval ip mod 2 ^ 64) (frac_text frac ++ tail) =
    (dval (ip ++ frac_digits frac) mod 2 ^ 64, Z.of_nat (List.length (frac_digits frac)) mod 256, tail)).
  { unfold asset_frac. destruct frac as [f|]; cbn [frac_text frac_digits app] in *.
    - rewrite Z.eqb_refl. rewrite frac_loop by (auto; try lia; apply Z.mod_pos_bound; lia).
      rewrite dval_app, Z.add_0_l. f_equal. f_equal.
      rewrite <- Z.add_mod_idemp_l, Z.mul_mod_idemp_l, Z.add_mod_idemp_l by lia. reflexivity.
    - rewrite app_nil_r. destruct tail as [|c tail']; auto. cbn in S3. now rewrite S3. }
  rewrite FR. unfold tail. rewrite code_at_ok by auto.
  rewrite signed_amount. rewrite pack_symbol; [reflexivity|pose proof (code_text_range l C); lia|apply Z.mod_pos_bound; lia].
Qed.

Lemma asset_at_inv req s a sym rest : string_to_asset_at req s = Some (a, sym, rest) ->
  exists k1 neg ip frac k2 l, s = asset_text k1 neg ip frac k2 l ++ rest /\
    forallb is_digit ip = true /\ forallb is_digit (frac_digits frac) = true /\ code_text l /\
    stops is_upper rest /\ (req = false \/ rest = []).
Proof.
  intros H. unfold string_to_asset_at in H.
  destruct (span_spec (fun c => c =? 32) s) as (sp & s1 & E1 & S1 & F1 & T1). rewrite E1 in H.
  destruct (asset_sign s1) as [neg s2] eqn:N.
  assert (S2 : s1 = sign_text neg ++ s2).
  { unfold asset_sign in N. destruct s1 as [|c s1]; [injection N as <- <-; reflexivity|].
    destruct (Z.eqb_spec c 45); injection N as <- <-; [subst; reflexivity|reflexivity]. }
  destruct (span_spec is_digit s2) as (ip & s3 & _ & S3 & F3 & T3). rewrite S3, amt_loop in H by (auto; lia).
  set (u := (0 * 10 ^ Z.of_nat (List.length ip) + dval ip) mod 2 ^ 64) in *.
  assert (Hfrac : exists frac s4 u' p', s3 = frac_text frac ++ s4 /\ forallb is_digit (frac_digits frac) = true /\
    asset_frac u s3 = (u', p', s4)).
  { unfold asset_frac. destruct s3 as [|c s3]; [exists None, [], u, 0; auto|].
    destruct (Z.eqb_spec c 46).
    - subst c. destruct (span_spec is_digit s3) as (f & s4 & _ & S4 & F4 & T4).
      exists (Some f), s4. rewrite S4. rewrite frac_loop by (auto; try lia; apply Z.mod_pos_bound; lia).
      eexists _, _. split; [reflexivity|]. split; [exact F4|reflexivity].
    - exists None, (c :: s3), u, 0. auto. }
  destruct Hfrac as (frac & s4 & u' & p' & S4 & F4 & EQ). rewrite EQ in H.
  destruct (string_to_symbol_code_at req s4) as [[code pos]|] eqn:A; [|discriminate].
  apply code_at_inv in A. destruct A as (k & l & S5 & C & V & St & R). injection H as _ _ <-.
  exists (List.length sp), neg, ip, frac, k, l. unfold asset_text, spaces. rewrite <- all_eq_repeat by auto.
  split; [|auto]. rewrite S1, S2, S3, S4, S5. rewrite <- !app_assoc. reflexivity.
Qed.

(** ** Printing *)
Lemma asset_fraction_spec p : forall u acc, 0 <= u ->
  asset_fraction p u acc = (u / 10 ^ Z.of_nat p, acc ++ rev (decn p u)).
Proof.
  induction p as [|p IH]; intros u acc Hu.
  - cbn [asset_fraction]. change (10 ^ Z.of_nat 0) with 1. rewrite Z.div_1_r. cbn. now rewrite app_nil_r.
  - cbn [asset_fraction]. rewrite IH by (apply Z.div_pos; lia).
    rewrite Nat2Z.inj_succ, Z.pow_succ_r by lia. rewrite Z.div_div by (try lia; apply Z.pow_pos_nonneg; lia).
    f_equal. change (decn (S p) u) with (decn p (u / 10) ++ [48 + u mod 10]).
    rewrite rev_app_distr, <- app_assoc. reflexivity.
Qed.
Lemma dec_loop_acc f : forall u acc, dec_loop f u acc = dec_loop f u [] ++ acc.
Proof.
  induction f as [|f IH]; intros u acc; [reflexivity|]. cbn [dec_loop].
  destruct (u / 10 =? 0); [reflexivity|]. rewrite IH, (IH _ [_]), <- app_assoc. reflexivity.
Qed.
Lemma dec_step u : 0 <= u -> dec u = if u / 10 =? 0 then [48 + u mod 10] else dec (u / 10) ++ [48 + u mod 10].
Proof.
  intros Hu. destruct (Z.eqb_spec (u / 10) 0) as [E|E].
  - assert (u < 10) by (pose proof (Z.div_mod u 10 ltac:(lia)); pose proof (Z.mod_pos_bound u 10 ltac:(lia)); lia).
    unfold dec. cbn [dec_loop]. now rewrite E.
  - assert (10 <= u). { destruct (Z_lt_dec u 10); [|lia]. exfalso. apply E. apply Z.div_small. lia. }
    destruct (dec_spec u Hu) as (F & V & N & _ & L). destruct (dec_spec (u / 10) ltac:(apply Z.div_pos; lia)) as (F' & V' & N' & _ & L').
    assert (0 < u / 10) by (pose proof (Z.div_pos u 10); lia).
    destruct (L ltac:(lia)) as (c & d & E1 & C1). destruct (L' ltac:(lia)) as (c' & d' & E2 & C2).
    (* same value, no leading zeros: same length, so equal *)
    assert (Va : dval (dec (u / 10) ++ [48 + u mod 10]) = u) by (rewrite dval_snoc, V'; pose proof (Z.div_mod u 10); lia).
    assert (Fa : forallb is_digit (dec (u / 10) ++ [48 + u mod 10]) = true) by (rewrite forallb_app, F'; cbn [forallb]; now rewrite mod10_digit).
    assert (G : forall x y, forallb is_digit (x) = true -> forallb is_digit y = true -> dval x = dval y -> 0 < dval x ->
       (exists a b, x = a :: b /\ a <> 48) -> (exists a b, y = a :: b /\ a <> 48) -> (List.length x <= List.length y)%nat).
    { intros x y Fx Fy Ex Px (a & b & -> & Na) (a' & b' & -> & Na').
      destruct (Nat.leb_spec (List.length (a :: b)) (List.length (a' :: b'))) as [|X]; auto. exfalso.
      pose proof (dval_bound _ Fy) as By. rewrite <- Ex, dval_cons in By.
      cbn [forallb List.length] in *. apply andb_true_iff in Fx. destruct Fx as [Fxa Fxb]. apply is_digit_range in Fxa.
      pose proof (dval_bound b Fxb).
      assert (10 ^ Z.of_nat (S (List.length b')) <= 10 ^ Z.of_nat (List.length b)) by (apply Z.pow_le_mono_r; lia). nia. }
    apply dval_inj; auto; [|congruence].
    assert (Xa : exists a b, dec (u / 10) ++ [48 + u mod 10] = a :: b /\ a <> 48) by (rewrite E2; cbn; eauto).
    apply Nat.le_antisymm; apply G; auto; try congruence; try lia; eauto.
Qed.
Lemma asset_int_spec f : forall u acc, 0 <= u < 10 ^ Z.of_nat f -> (0 < f)%nat ->
  asset_int f u acc = Ok (acc ++ rev (dec u)).
Proof.
  induction f as [|f IH]; intros u acc Hu Hf; [lia|]. cbn [asset_int]. rewrite (dec_step u) by lia.
  destruct (Z.eqb_spec (u / 10) 0) as [E|E]; [reflexivity|].
  rewrite Nat2Z.inj_succ, Z.pow_succ_r in Hu by lia.
  assert (0 <= u / 10 < 10 ^ Z.of_nat f) by (split; [apply Z.div_pos; lia|apply Z.div_lt_upper_bound; lia]).
  rewrite IH; [|auto|destruct f; [cbn in *; lia|lia]].
  rewrite rev_app_distr, <- app_assoc. reflexivity.
Qed.

(** What is printed. *)
Definition asset_print (a sym : Z) : bytes :=
  let p := Z.to_nat (sym mod 256) in
  sign_text (a <? 0) ++ dec (Z.abs a / 10 ^ Z.of_nat p) ++
  frac_text (if (p =? 0)%nat then None else Some (decn p (Z.abs a))) ++ [32] ++ symbol_code_to_string (sym / 256).
Lemma asset_to_string_eq a sym : - 2 ^ 63 < a < 2 ^ 63 -> asset_to_string a sym = Ok (asset_print a sym).
Proof.
  intros Ha. unfold asset_to_string, asset_print. rewrite shr8.
  assert (U : (if a <? 0 then if a =? - 2 ^ 63 then Undef "signed overflow" else Ok (- a) else Ok a) = @Ok Z (Z.abs a)).
  { destruct (Z.ltb_spec a 0); [|f_equal; lia]. destruct (Z.eqb_spec a (- 2 ^ 63)); [lia|]. f_equal. lia. }
  rewrite U. cbn [bind]. pose proof (Z.mod_pos_bound sym 256 ltac:(lia)) as Pb.
  set (p := Z.to_nat (sym mod 256)).
  assert (B : 0 <= Z.abs a / 10 ^ Z.of_nat p < 10 ^ Z.of_nat 21).
  { assert (0 < 10 ^ Z.of_nat p) by (apply Z.pow_pos_nonneg; lia). split; [apply Z.div_pos; lia|].
    apply Z.div_lt_upper_bound; auto. change (10 ^ Z.of_nat 21) with 1000000000000000000000. nia. }
  destruct (Z.eqb_spec (sym mod 256) 0) as [E|E].
  - assert (p = O) by (unfold p; lia). rewrite H in *. cbn [Nat.eqb frac_text].
    change (10 ^ Z.of_nat 0) with 1 in *. rewrite Z.div_1_r in *.
    rewrite asset_int_spec by (auto; lia). cbn [bind]. rewrite app_nil_l.
    destruct (Z.ltb_spec a 0); cbn [sign_text].
    + rewrite rev_app_distr, rev_involutive. cbn [rev app]. reflexivity.
    + now rewrite rev_involutive.
  - rewrite asset_fraction_spec by lia. rewrite asset_int_spec by (auto; lia). cbn [bind].
    destruct (Nat.eqb_spec p 0); [unfold p in *; lia|]. cbn [frac_text].
    rewrite app_nil_l. destruct (Z.ltb_spec a 0); cbn [sign_text];
      rewrite ?rev_app_distr; cbn [rev app]; rewrite ?rev_app_distr, ?rev_involutive; cbn [rev app];
      rewrite <- ?app_assoc; cbn [app]; rewrite ?rev_involutive; reflexivity.
Qed.

Lemma asset_roundtrip a code p : - 2 ^ 63 < a < 2 ^ 63 -> 0 <= p < 256 -> 0 <= code < 2 ^ 56 ->
  symbol_code_is_valid code = true ->
  string_to_asset (asset_print a (code * 256 + p)) = Some (a, code * 256 + p).
Proof.
  intros Ha Hp Hc V. apply is_valid56 in V; auto. destruct V as (l & C & ->).
  unfold asset_print. destruct (unpack_symbol (le_val l) p Hp) as [E1 E2]. rewrite E1, E2, code_to_string by auto.
  set (pn := Z.to_nat p). set (frac := if (pn =? 0)%nat then None else Some (decn pn (Z.abs a))).
  pose proof (asset_at_ok true 0 (a <? 0) (dec (Z.abs a / 10 ^ Z.of_nat pn)) frac 1 l [] ) as H.
  unfold asset_text in H. cbn [spaces repeat app] in H. rewrite app_nil_r in H.
  unfold string_to_asset. cbn [app]. rewrite H; auto.
  - cbn [option_map fst]. f_equal.
    assert (P0 : 0 < 10 ^ Z.of_nat pn) by (apply Z.pow_pos_nonneg; lia).
    assert (Lf : List.length (frac_digits frac) = pn).
    { unfold frac. destruct (Nat.eqb_spec pn 0); cbn; [lia|apply decn_length]. }
    assert (Vf : dval (frac_digits frac) = Z.abs a mod 10 ^ Z.of_nat pn).
    { unfold frac. destruct (Nat.eqb_spec pn 0) as [E|E]; cbn [frac_digits]; [|apply decn_val; lia].
      rewrite E. change (10 ^ Z.of_nat 0) with 1. now rewrite Z.mod_1_r. }
    rewrite dval_app, Lf, Vf, dec_val by (apply Z.div_pos; lia).
    replace (Z.abs a / 10 ^ Z.of_nat pn * 10 ^ Z.of_nat pn + Z.abs a mod 10 ^ Z.of_nat pn) with (Z.abs a) by (pose proof (Z.div_mod (Z.abs a) (10 ^ Z.of_nat pn)); lia).
    f_equal.
    + replace (signed_val (a <? 0) (Z.abs a)) with a by (unfold signed_val; destruct (Z.ltb_spec a 0); lia).
      unfold wrap_s. apply (to_signed_unsigned 64); lia.
    + f_equal. rewrite Z.mod_small by lia. lia.
  - apply dec_digits. apply Z.div_pos; [lia|]. apply Z.pow_pos_nonneg; lia.
  - unfold frac. destruct (Nat.eqb_spec pn 0); cbn [frac_digits]; [reflexivity|apply decn_digits].
  - exact I.
Qed.
