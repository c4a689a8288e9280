(** * Facts about sortable keys (proofs only) *)
From Verif Require Import Base Stream StreamFacts TypedBin TypedSpec ValOrder TypedBinFacts ToKey.

(** ** The bytes written, as a pure function *)
Fixpoint kvu_rest (i : nat) (obj : Z) : bytes :=
  match i with O => [] | S i' => Z.land (Z.shiftr obj (Z.of_nat i' * 8)) 255 :: kvu_rest i' obj end.
Definition kvu (obj : Z) : bytes := let n := key_varuint32_size obj in key_varuint32_first n obj :: kvu_rest (Z.to_nat (n - 1)) obj.
Definition esc (c : Z) : bytes := c :: (if c =? 0 then [1] else []).
Definition kopt (t : ty) (f : val -> res bytes) (o : option val) : res bytes :=
  if one_byte t then
    match o with None => Ok [0; 0] | Some x => let* b := f x in Ok (esc (nth 0 b 0)) end
  else match o with Some x => eapp (Ok [1]) (f x) | None => Ok [0] end.
Definition kpair (f g : val -> res bytes) (x : val) : res bytes :=
  match x with VList [a; b] => eapp (Ok [1]) (eapp (f a) (g b)) | _ => Undef "ill-typed value" end.
Fixpoint kenc_with (ref : nat -> val -> res bytes) (t : ty) (v : val) {struct t} : res bytes :=
  match t, v with
  | TInt sg n, VInt z => Ok (key_int sg n z)
  | TBool, VBool b => Ok [if b then 1 else 0]
  | TFloat n, VFloat _ b => Ok (key_int false n (float_to_key n b))
  | TVaruint32, VInt z => Ok (kvu z)
  | TString, VStr b => Ok (flat_map esc b ++ [0; 0])
  | TVec t', VList l | TSeq t', VList l | TSet t', VList l =>
      eapp (enc_seq (fun x => kopt t' (kenc_with ref t') (Some x)) l) (kopt t' (kenc_with ref t') None)
  | TMap k t', VList l => eapp (enc_seq (kpair (kenc_with ref k) (kenc_with ref t')) l) (Ok [0])
  | TArr _ t', VList l => enc_seq (kenc_with ref t') l
  | TOpt t', VOpt o => kopt t' (kenc_with ref t') o
  | TVariant ts, VVar i x =>
      eapp (Ok (kvu i)) match nthz (map (kenc_with ref) ts) i with Some f => f x | None => Undef "ill-typed value" end
  | TTuple ts, VList l => enc_tuple (map (kenc_with ref) ts) l
  | TWrap _ t', _ => kenc_with ref t' v
  | TRef n, _ => ref n v
  | _, _ => Undef "ill-typed value"
  end.
Fixpoint kenc (env : nat -> ty) (fuel : nat) : ty -> val -> res bytes :=
  kenc_with (fun n v => match fuel with O => Undef "stack" | S f => kenc env f (env n) v end).
Lemma kenc_unfold env fuel :
  kenc env fuel = kenc_with (fun n v => match fuel with O => Undef "stack" | S f => kenc env f (env n) v end).
Proof. destruct fuel; reflexivity. Qed.
Lemma to_key_unfold env fuel :
  to_key env fuel = to_key_with (fun S n v s => match fuel with O => Undef "stack" | Datatypes.S f => to_key env f (env n) S v s end).
Proof. destruct fuel; reflexivity. Qed.

Lemma key_int_length sg n z : List.length (key_int sg n z) = n.
Proof. unfold key_int. cbv zeta. rewrite rev_length. apply le_bytes_length. Qed.

Section KRel.
  Variable S : ostream.
  Hypothesis HS : hom S.
  Lemma rel_kvu_rest obj i : rel S (Ok (kvu_rest i obj)) (key_varuint32_rest S i obj).
  Proof.
    induction i as [|i IH]; [apply rel_nil; exact HS|]. cbn [kvu_rest key_varuint32_rest].
    apply (rel_app S HS (Ok [_]) (Ok (kvu_rest i obj)) _ _ (rel_write S _) IH).
  Qed.
  Lemma rel_kvu obj : rel S (Ok (kvu obj)) (to_key_varuint32 S obj).
  Proof. apply (rel_app S HS (Ok [_]) (Ok (kvu_rest _ obj)) _ _ (rel_write S _) (rel_kvu_rest obj _)). Qed.
  Lemma rel_esc c : rel S (Ok (esc c)) (fun s => let* s := owrite S s [c] in if c =? 0 then owrite S s [1] else Ok s).
  Proof.
    apply (rel_app S HS (Ok [c]) (Ok (if c =? 0 then [1] else [])) (fun s => owrite S s [c]) _ (rel_write S _)).
    destruct (c =? 0); [apply rel_write|apply rel_nil; exact HS].
  Qed.
  Lemma rel_chars b : rel S (Ok (flat_map esc b)) (key_chars S b).
  Proof.
    induction b as [|c b IH]; [apply rel_nil; exact HS|]. cbn [flat_map key_chars].
    pose proof (rel_app S HS (Ok (esc c)) (Ok (flat_map esc b)) _ _ (rel_esc c) IH) as H. eapply rel_ext; [exact H|].
    intros s. cbv beta. destruct (owrite S s [c]); reflexivity.
  Qed.
  Lemma rel_kopt t (f : val -> res bytes) (g : forall S : ostream, val -> ost S -> res (ost S)) o :
    (one_byte t = true -> forall x, (exists c, f x = Ok [c] /\ g fixed_buf_stream x ([], 1%nat) = Ok ([c], 0%nat)) \/
                                     (exists w, f x = Undef w /\ g fixed_buf_stream x ([], 1%nat) = Undef w)) ->
    (forall x, rel S (f x) (g S x)) -> rel S (kopt t f o) (to_key_optional S t g o).
  Proof.
    intros H1 H2. unfold kopt, to_key_optional. destruct (one_byte t).
    - destruct o as [x|]; [|apply rel_write]. destruct (H1 eq_refl x) as [(c & -> & E) | (w & -> & E)]; rewrite E; cbn [bind fst nth].
      + apply rel_esc.
      + apply rel_undef. reflexivity.
    - destruct o as [x|]; [|apply rel_write]. apply (rel_app S HS (Ok [1]) (f x) (fun s => owrite S s [1]) (g S x)); [apply rel_write|apply H2].
  Qed.
End KRel.
Lemma one_byte_key ref1 ref2 t : one_byte t = true -> forall x,
  (exists c, kenc_with ref1 t x = Ok [c] /\ to_key_with ref2 t fixed_buf_stream x ([], 1%nat) = Ok ([c], 0%nat)) \/
  (exists w, kenc_with ref1 t x = Undef w /\ to_key_with ref2 t fixed_buf_stream x ([], 1%nat) = Undef w).
Proof.
  intros H x. destruct t; try discriminate.
  - cbn [one_byte] in H. assert (size = 1%nat) as -> by (destruct size as [|[|]]; try discriminate; reflexivity).
    destruct x; cbn [kenc_with to_key_with]; try (right; eexists; split; reflexivity). left.
    pose proof (key_int_length signed 1 z) as L. destruct (key_int signed 1 z) as [|c [|]]; cbn [List.length] in L; try discriminate. exists c. split; reflexivity.
  - destruct x; cbn [kenc_with to_key_with]; try (right; eexists; split; reflexivity). left. eexists. split; reflexivity.
Qed.
Lemma rel_to_key_with ref1 ref2 : (forall S, hom S -> forall n v, rel S (ref1 n v) (ref2 S n v)) ->
  forall t S, hom S -> forall v, rel S (kenc_with ref1 t v) (to_key_with ref2 t S v).
Proof.
  intros Href t. induction t as
    [sg n| |n| | | | |t IH|t IH|t IH|k t IHk IHt|n t IH|n t IH|t IH|ts IH|ts IH|t IH|k t IH|n] using ty_ind';
  intros S HS v; cbn [kenc_with to_key_with];
  try (destruct v; try (apply rel_undef; reflexivity); try apply rel_write; try (apply rel_kvu; exact HS); fail).
  - destruct v; try (apply rel_undef; reflexivity). apply (rel_app S HS (Ok (flat_map esc s)) (Ok [0; 0])); [apply rel_chars; exact HS|apply rel_write].
  - destruct v; try (apply rel_undef; reflexivity). apply rel_app; auto; [apply rel_seq; auto; intros x|]; apply rel_kopt; auto; apply one_byte_key.
  - destruct v; try (apply rel_undef; reflexivity). apply rel_app; auto; [apply rel_seq; auto; intros x|]; apply rel_kopt; auto; apply one_byte_key.
  - destruct v; try (apply rel_undef; reflexivity). apply rel_app; auto; [apply rel_seq; auto; intros x|]; apply rel_kopt; auto; apply one_byte_key.
  - destruct v; try (apply rel_undef; reflexivity). apply rel_app; auto; [apply rel_seq; auto; intros x|apply rel_write].
    unfold kpair. destruct x as [| | | |[|a [|b [|]]]| |]; try (apply rel_undef; reflexivity).
    apply (rel_app S HS (Ok [1]) _ (fun s => owrite S s [1]) (fun s => let* s := to_key_with ref2 k S a s in to_key_with ref2 t S b s)); [apply rel_write|].
    apply rel_app; auto.
  - destruct v; try (apply rel_undef; reflexivity). apply rel_seq; auto.
  - destruct v; try (apply rel_undef; reflexivity). apply rel_kopt; auto. apply one_byte_key.
  - destruct v; try (apply rel_undef; reflexivity). apply (rel_app S HS (Ok (kvu i))); [apply rel_kvu; exact HS|].
    pose proof (nthz_map2 (kenc_with ref1) (fun t => to_key_with ref2 t S)
                  (fun f g => forall v, rel S (f v) (g v)) ts i) as HN.
    match type of HN with ?A -> _ => assert (HA : A) by (clear - IH HS; induction IH; constructor; auto) end. specialize (HN HA).
    destruct (nthz (map (kenc_with ref1) ts) i), (nthz (map (fun t => to_key_with ref2 t S) ts) i);
      try contradiction; [apply HN | apply rel_undef; reflexivity].
  - destruct v; try (apply rel_undef; reflexivity). apply rel_tuple; auto.
    clear -IH HS. induction IH; cbn [map]; constructor; auto.
  - destruct v; apply IH; auto.
  - destruct v; apply Href; auto.
Qed.
Lemma rel_to_key env fuel t S : hom S -> forall v, rel S (kenc env fuel t v) (to_key env fuel t S v).
Proof.
  revert t S; induction fuel as [|fuel IH]; intros t S HS v; rewrite kenc_unfold, to_key_unfold;
    apply rel_to_key_with; auto; intros S' HS' n x.
  - intros T s. reflexivity.
Qed.
Lemma to_key_vector env fuel t v d : to_key env fuel t vector_stream v d = let* b := kenc env fuel t v in Ok (d ++ b).
Proof.
  pose proof (rel_to_key env fuel t vector_stream hom_vector v) as H. unfold rel in H. destruct (kenc env fuel t v); cbn [bind]; rewrite H; auto using tot_vector.
Qed.
Lemma to_key_size env fuel t v n : to_key env fuel t size_stream v n = let* b := kenc env fuel t v in Ok (n + List.length b)%nat.
Proof.
  pose proof (rel_to_key env fuel t size_stream hom_size v) as H. unfold rel in H. destruct (kenc env fuel t v); cbn [bind]; rewrite H; auto using tot_size.
Qed.
Lemma to_key_fixed env fuel t v b s : kenc env fuel t v = Ok b -> to_key env fuel t fixed_buf_stream v s = owrite fixed_buf_stream s b.
Proof. intros E. pose proof (rel_to_key env fuel t fixed_buf_stream hom_fixed v) as H. rewrite E in H. apply H. Qed.
Lemma convert_to_key_eq env fuel t v bin : convert_to_key env fuel t v bin = let* b := kenc env fuel t v in Ok (bin ++ b).
Proof.
  unfold convert_to_key. rewrite to_key_size. destruct (kenc env fuel t v) as [b| |] eqn:E; cbn [bind]; auto.
  rewrite (to_key_fixed env fuel t v b _ E). cbn [owrite fixed_buf_stream].
  unfold check. rewrite Nat.leb_refl. cbn [bind Nat.add]. rewrite Nat.sub_diag. reflexivity.
Qed.

(** ** Order *)
Definition ordk (a b : bytes) (c : comparison) : Prop :=
  match c with Eq => a = b | _ => forall x y, lexcmp (a ++ x) (b ++ y) = c end.
Definition lexc (c d : comparison) : comparison := match c with Eq => d | _ => c end.
Lemma lexcmp_refl a : lexcmp a a = Eq.
Proof. induction a as [|x a IH]; [reflexivity|]. cbn [lexcmp]. rewrite Z.compare_refl. exact IH. Qed.
Lemma lexcmp_same p a b : lexcmp (p ++ a) (p ++ b) = lexcmp a b.
Proof. induction p as [|x p IH]; [reflexivity|]. cbn [app lexcmp]. rewrite Z.compare_refl. exact IH. Qed.
Lemma ordk_app a b c a' b' c' : ordk a b c -> (c = Eq -> ordk a' b' c') -> ordk (a ++ a') (b ++ b') (lexc c c').
Proof.
  intros H1 H2. destruct c; cbn [ordk lexc] in *.
  - subst b. specialize (H2 eq_refl). destruct c'; cbn [ordk] in *; [subst; reflexivity| |]; intros x y; rewrite <- !app_assoc, lexcmp_same; apply H2.
  - intros x y. rewrite <- !app_assoc. apply H1.
  - intros x y. rewrite <- !app_assoc. apply H1.
Qed.
Lemma ordk_byte x y : ordk [x] [y] (x ?= y).
Proof.
  unfold ordk. destruct (x ?= y) eqn:E.
  - apply Z.compare_eq in E. subst. reflexivity.
  - intros a b. cbn [app lexcmp]. rewrite E. reflexivity.
  - intros a b. cbn [app lexcmp]. rewrite E. reflexivity.
Qed.
Lemma be_snoc n x : rev (le_bytes (S n) x) = rev (le_bytes n (x / 256)) ++ [x mod 256].
Proof. reflexivity. Qed.
Lemma cmp_split x y : (x ?= y) = lexc (x / 256 ?= y / 256) (x mod 256 ?= y mod 256).
Proof.
  destruct (Z.compare_spec (x / 256) (y / 256)) as [E|E|E]; cbn [lexc].
  - pose proof (Z.div_mod x 256 ltac:(lia)) as Dx. pose proof (Z.div_mod y 256 ltac:(lia)) as Dy. rewrite E in Dx.
    destruct (Z.compare_spec (x mod 256) (y mod 256)); [apply Z.compare_eq_iff|apply Z.compare_lt_iff|apply Z.compare_gt_iff]; lia.
  - apply Z.compare_lt_iff. lia.
  - apply Z.compare_gt_iff. lia.
Qed.
Lemma ordk_be n : forall x y, 0 <= x < 256 ^ Z.of_nat n -> 0 <= y < 256 ^ Z.of_nat n -> ordk (rev (le_bytes n x)) (rev (le_bytes n y)) (x ?= y).
Proof.
  induction n as [|n IH]; intros x y Hx Hy.
  - change (256 ^ Z.of_nat 0) with 1 in *. assert (x = 0) by lia. assert (y = 0) by lia. subst. reflexivity.
  - rewrite !be_snoc, cmp_split. rewrite Nat2Z.inj_succ, Z.pow_succ_r in Hx, Hy by lia.
    apply ordk_app; [apply IH; (split; [apply Z.div_pos; lia|apply Z.div_lt_upper_bound; lia])|]. intros _. apply ordk_byte.
Qed.
Lemma pow256 n : 256 ^ Z.of_nat n = 2 ^ (8 * Z.of_nat n).
Proof. rewrite Z.pow_mul_r by lia. reflexivity. Qed.
Lemma key_int_val sg n z : int_ok sg n z = true -> key_int sg n z = rev (le_bytes n (z - key_min sg n)) /\ 0 <= z - key_min sg n < 256 ^ Z.of_nat n.
Proof.
  intros H. unfold int_ok in H. assert (Hn : 0 < Z.of_nat n <= 16) by lia. unfold key_int, key_min. cbv zeta. rewrite pow256.
  assert (P : 2 ^ (8 * Z.of_nat n) = 2 * 2 ^ (8 * Z.of_nat n - 1)) by (rewrite <- Z.pow_succ_r by lia; f_equal; lia).
  destruct sg; unfold fits_s, fits_u in H; rewrite <- Zminus_mod; rewrite (Z.mod_small (z - _)) by lia; split; auto; lia.
Qed.
Lemma ordk_int sg n x y : int_ok sg n x = true -> int_ok sg n y = true -> ordk (key_int sg n x) (key_int sg n y) (x ?= y).
Proof.
  intros Hx Hy. destruct (key_int_val sg n x Hx) as [-> Rx]. destruct (key_int_val sg n y Hy) as [-> Ry].
  replace (x ?= y) with (x - key_min sg n ?= y - key_min sg n); [apply ordk_be; auto|].
  destruct (Z.compare_spec x y); [apply Z.compare_eq_iff|apply Z.compare_lt_iff|apply Z.compare_gt_iff]; lia.
Qed.
(** Floats *)
Lemma land_top k r : 0 <= k -> 0 <= r < 2 ^ (k + 1) -> (Z.land r (2 ^ k) =? 0) = (r <? 2 ^ k).
Proof.
  intros Hk Hr. rewrite Z.pow_add_r in Hr by lia. change (2 ^ 1) with 2 in Hr.
  assert (E : Z.land r (2 ^ k) = (r / 2 ^ k) mod 2 * 2 ^ k).
  { rewrite <- (Z.shiftr_div_pow2 r k), <- (Z.land_ones _ 1) by lia. change (Z.ones 1) with 1. rewrite <- Z.shiftl_mul_pow2 by lia.
    apply Z.bits_inj'. intros i Hi. rewrite Z.land_spec, Z.shiftl_spec, Z.pow2_bits_eqb by lia.
    destruct (Z.eqb_spec k i) as [->|Hne].
    - replace (i - i) with 0 by lia. rewrite Z.land_spec, Z.shiftr_spec by lia. replace (0 + i) with i by lia. change (Z.testbit 1 0) with true. rewrite Bool.andb_true_r. reflexivity.
    - rewrite Bool.andb_false_r. destruct (Z_lt_dec i k); [symmetry; apply Z.testbit_neg_r; lia|]. rewrite Z.land_spec. change 1 with (2 ^ 0). rewrite Z.pow2_bits_eqb by lia.
      destruct (Z.eqb_spec 0 (i - k)); [lia|]. rewrite Bool.andb_false_r. reflexivity. }
  assert (P : 0 < 2 ^ k) by (apply Z.pow_pos_nonneg; lia).
  destruct (Z.ltb_spec r (2 ^ k)).
  - rewrite E, Z.div_small by lia. reflexivity.
  - assert (r / 2 ^ k = 1) as D by (symmetry; apply (Z.div_unique _ _ _ (r - 2 ^ k)); lia). rewrite E, D. change (1 mod 2) with 1. apply Z.eqb_neq. lia.
Qed.
Lemma lxor_top k r : 0 <= k -> 0 <= r < 2 ^ k -> Z.lxor r (2 ^ k) = r + 2 ^ k.
Proof.
  intros Hk Hr. symmetry. apply Z.add_nocarry_lxor. apply Z.bits_inj'. intros i Hi. rewrite Z.land_spec, Z.pow2_bits_eqb, Z.bits_0 by lia.
  destruct (Z.eqb_spec k i) as [->|]; [|apply Bool.andb_false_r]. rewrite Bool.andb_true_r.
  destruct (Z.eq_dec r 0) as [->|]; [apply Z.bits_0|]. apply Z.bits_above_log2; [lia|]. apply Z.log2_lt_pow2; lia.
Qed.
Lemma lxor_all k r : 0 <= k -> 0 <= r < 2 ^ k -> Z.lxor r (2 ^ k - 1) = 2 ^ k - 1 - r.
Proof.
  intros Hk Hr. replace (2 ^ k - 1) with (Z.ones k) by (rewrite Z.ones_equiv; lia).
  assert (E : Z.lxor r (Z.ones k) + r = Z.ones k).
  { rewrite Z.add_nocarry_lxor.
    - rewrite Z.lxor_assoc, (Z.lxor_comm (Z.ones k)), <- Z.lxor_assoc, Z.lxor_nilpotent, Z.lxor_0_l. reflexivity.
    - apply Z.bits_inj'. intros i Hi. rewrite Z.land_spec, Z.lxor_spec, Z.bits_0. destruct (Z_lt_dec i k).
      + rewrite Z.ones_spec_low by lia. destruct (Z.testbit r i); reflexivity.
      + assert (T : Z.testbit r i = false) by (destruct (Z.eq_dec r 0) as [->|]; [apply Z.bits_0|]; apply Z.bits_above_log2; [lia|]; assert (Z.log2 r < k) by (apply Z.log2_lt_pow2; lia); lia).
        rewrite T, Bool.andb_false_r. reflexivity. }
  lia.
Qed.
Lemma float_key_val n b : (n = 4 \/ n = 8)%nat -> 0 <= b < 2 ^ (8 * Z.of_nat n) ->
  float_to_key n b = (if 0 <=? float_rank n b then 2 ^ (8 * Z.of_nat n - 1) + float_rank n b else 2 ^ (8 * Z.of_nat n - 1) - 1 + float_rank n b).
Proof.
  intros Hn Hb. unfold float_to_key, float_rank, float_sign, float_mag. cbv zeta. remember (8 * Z.of_nat n - 1) as k eqn:Ek.
  assert (E8 : 8 * Z.of_nat n = k + 1) by lia. assert (Hk : 0 <= k) by lia. rewrite E8 in *. clear E8 Ek Hn n.
  assert (P2 : 2 ^ (k + 1) = 2 * 2 ^ k) by (rewrite Z.pow_add_r by lia; lia). assert (P : 0 < 2 ^ k) by (apply Z.pow_pos_nonneg; lia).
  remember (2 ^ k) as M eqn:EM.
  destruct (Z.leb_spec M b) as [L|L].
  - assert (Em : b mod M = b - M) by (symmetry; apply (Z.mod_unique_pos _ _ 1); lia). rewrite Em.
    destruct (Z.eqb_spec b M) as [->|Hne].
    + rewrite Z.land_0_l. cbn [Z.eqb]. rewrite Z.lor_0_l, Z.lxor_0_l. destruct (Z.leb_spec 0 (- (M - M))); lia.
    + rewrite EM at 1. rewrite land_top by lia. rewrite <- EM. destruct (Z.ltb_spec b M); [lia|].
      assert (O : Z.lor (2 ^ (k + 1) - 1) M = 2 ^ (k + 1) - 1).
      { rewrite EM. replace (2 ^ (k + 1) - 1) with (Z.ones (k + 1)) by (rewrite Z.ones_equiv; lia). apply Z.bits_inj'. intros i Hi. rewrite Z.lor_spec, Z.pow2_bits_eqb by lia. destruct (Z.eqb_spec k i) as [->|]; [|apply Bool.orb_false_r].
        rewrite Z.ones_spec_low by lia. reflexivity. }
      rewrite O. rewrite lxor_all by lia. destruct (Z.leb_spec 0 (- (b - M))); lia.
  - rewrite (Z.mod_small b) by lia. destruct (Z.eqb_spec b M); [lia|]. rewrite EM at 1. rewrite land_top by lia. rewrite <- EM. destruct (Z.ltb_spec b M); [|lia].
    rewrite Z.lor_0_l, EM. rewrite lxor_top by lia. destruct (Z.leb_spec 0 b); lia.
Qed.
Lemma float_rank_bound n b : (n = 4 \/ n = 8)%nat -> 0 <= b < 2 ^ (8 * Z.of_nat n) -> - 2 ^ (8 * Z.of_nat n - 1) < float_rank n b < 2 ^ (8 * Z.of_nat n - 1).
Proof.
  intros Hn Hb. unfold float_rank, float_mag. assert (P : 0 < 2 ^ (8 * Z.of_nat n - 1)) by (apply Z.pow_pos_nonneg; lia).
  pose proof (Z.mod_pos_bound b (2 ^ (8 * Z.of_nat n - 1)) P). destruct (float_sign n b); lia.
Qed.
Lemma ordk_float n x y : (n = 4 \/ n = 8)%nat -> 0 <= x < 2 ^ (8 * Z.of_nat n) -> 0 <= y < 2 ^ (8 * Z.of_nat n) ->
  ordk (key_int false n (float_to_key n x)) (key_int false n (float_to_key n y)) (float_rank n x ?= float_rank n y).
Proof.
  intros Hn Hx Hy. pose proof (float_rank_bound n x Hn Hx) as Bx. pose proof (float_rank_bound n y Hn Hy) as By.
  pose proof (float_key_val n x Hn Hx) as Kx. pose proof (float_key_val n y Hn Hy) as Ky.
  assert (P2 : 2 ^ (8 * Z.of_nat n) = 2 * 2 ^ (8 * Z.of_nat n - 1)) by (rewrite <- Z.pow_succ_r by lia; f_equal; lia).
  assert (I : forall b, - 2 ^ (8 * Z.of_nat n - 1) < float_rank n b < 2 ^ (8 * Z.of_nat n - 1) -> float_to_key n b = (if 0 <=? float_rank n b then 2 ^ (8 * Z.of_nat n - 1) + float_rank n b else 2 ^ (8 * Z.of_nat n - 1) - 1 + float_rank n b) -> int_ok false n (float_to_key n b) = true).
  { intros b Hr E. unfold int_ok, fits_u. rewrite E. destruct (0 <=? float_rank n b) eqn:S; lia. }
  replace (float_rank n x ?= float_rank n y) with (float_to_key n x ?= float_to_key n y); [apply ordk_int; auto|].
  rewrite Kx, Ky. clear - Bx By. destruct (Z.leb_spec 0 (float_rank n x)), (Z.leb_spec 0 (float_rank n y));
  destruct (Z.compare_spec (float_rank n x) (float_rank n y)); try (apply Z.compare_eq_iff; lia); try (apply Z.compare_lt_iff; lia); try (apply Z.compare_gt_iff; lia).
Qed.

(** varuint32 *)
Lemma le_bytes_mod i w : le_bytes i w = le_bytes i (w mod 256 ^ Z.of_nat i).
Proof.
  revert w. induction i as [|i IH]; intros w; [reflexivity|]. cbn [le_bytes]. rewrite Nat2Z.inj_succ, Z.pow_succ_r by lia.
  assert (P : 0 < 256 ^ Z.of_nat i) by (apply Z.pow_pos_nonneg; lia). remember (256 ^ Z.of_nat i) as M.
  rewrite Z.rem_mul_r by lia.
  assert (E1 : (w mod 256 + 256 * ((w / 256) mod M)) mod 256 = w mod 256).
  { rewrite Z.mul_comm, Z_mod_plus_full. apply Z.mod_mod. lia. }
  assert (E2 : (w mod 256 + 256 * ((w / 256) mod M)) / 256 = (w / 256) mod M).
  { rewrite Z.mul_comm, Z_div_plus_full by lia. rewrite Z.div_small; [lia|]. apply Z.mod_pos_bound. lia. }
  rewrite E1, E2. f_equal. rewrite IH. subst M. reflexivity.
Qed.
Lemma le_bytes_snoc i : forall w, le_bytes (S i) w = le_bytes i w ++ [(w / 256 ^ Z.of_nat i) mod 256].
Proof.
  induction i as [|i IH]; intros w.
  - cbn [le_bytes app Z.of_nat]. rewrite Z.pow_0_r, Z.div_1_r. reflexivity.
  - change (le_bytes (S (S i)) w) with (w mod 256 :: le_bytes (S i) (w / 256)). rewrite IH. change (le_bytes (S i) w) with (w mod 256 :: le_bytes i (w / 256)).
    cbn [app]. do 3 f_equal. rewrite Nat2Z.inj_succ, Z.pow_succ_r, Z.div_div by (try apply Z.pow_pos_nonneg; lia). reflexivity.
Qed.
Lemma kvu_rest_be i obj : kvu_rest i obj = rev (le_bytes i obj).
Proof.
  induction i as [|i IH]; [reflexivity|]. rewrite le_bytes_snoc, rev_app_distr. cbn [rev app kvu_rest]. rewrite IH. f_equal.
  rewrite Z.shiftr_div_pow2 by lia. change 255 with (Z.ones 8). rewrite Z.land_ones by lia. change (2 ^ 8) with 256. f_equal. f_equal. rewrite Z.mul_comm, Z.pow_mul_r by lia. reflexivity.
Qed.
Lemma lor_mod256 a b : Z.lor a b mod 256 = Z.lor (a mod 256) (b mod 256).
Proof. change 256 with (2 ^ 8). rewrite <- !Z.land_ones by lia. apply Z.land_lor_distr_l. Qed.
Definition kvu_tag (n : Z) : Z := if n =? 1 then 0 else if n =? 2 then 128 else if n =? 3 then 192 else if n =? 4 then 224 else 240.
Lemma tag_lor n h : 1 <= n <= 5 -> 0 <= h < 2 ^ (8 - n) -> (n = 5 -> h = 0) -> Z.lor (kvu_tag n) h = kvu_tag n + h.
Proof.
  intros Hn Hh H5. assert (B : is_byte h) by (unfold is_byte; assert (2 ^ (8 - n) <= 2 ^ 8) by (apply Z.pow_le_mono_r; lia); lia).
  assert (X : n = 1 \/ n = 2 \/ n = 3 \/ n = 4 \/ n = 5) by lia. destruct X as [->|[->|[->|[->| ->]]]].
  - apply Z.lor_0_l.
  - change (2 ^ (8 - 2)) with 64 in Hh. pose proof (byte_sweep (fun h => negb (h <? 64) || (Z.lor 128 h =? 128 + h)) ltac:(vm_compute; reflexivity) h B) as Q. cbv beta in Q. change (kvu_tag 2) with 128. lia.
  - change (2 ^ (8 - 3)) with 32 in Hh. pose proof (byte_sweep (fun h => negb (h <? 32) || (Z.lor 192 h =? 192 + h)) ltac:(vm_compute; reflexivity) h B) as Q. cbv beta in Q. change (kvu_tag 3) with 192. lia.
  - change (2 ^ (8 - 4)) with 16 in Hh. pose proof (byte_sweep (fun h => negb (h <? 16) || (Z.lor 224 h =? 224 + h)) ltac:(vm_compute; reflexivity) h B) as Q. cbv beta in Q. change (kvu_tag 4) with 224. lia.
  - rewrite (H5 eq_refl). reflexivity.
Qed.
Lemma kvu_size_cases x : 0 <= x < 2 ^ 32 ->
  (key_varuint32_size x = 1 /\ x < 128) \/ (key_varuint32_size x = 2 /\ 128 <= x < 16384) \/ (key_varuint32_size x = 3 /\ 16384 <= x < 2097152) \/
  (key_varuint32_size x = 4 /\ 2097152 <= x < 268435456) \/ (key_varuint32_size x = 5 /\ 268435456 <= x).
Proof.
  intros H. unfold key_varuint32_size. destruct (x <? 128) eqn:E1; [left; lia|]. destruct (x <? 16384) eqn:E2; [right; left; lia|].
  destruct (x <? 2097152) eqn:E3; [do 2 right; left; lia|]. destruct (x <? 268435456) eqn:E4; [do 3 right; left; lia|]. do 4 right. lia.
Qed.
Lemma kvu_spec x : 0 <= x < 2 ^ 32 -> exists n h, key_varuint32_size x = Z.of_nat (S n) /\ (n <= 4)%nat /\
  h = x / 256 ^ Z.of_nat n /\ (0 <= h < 2 ^ (7 - Z.of_nat n) \/ n = 4%nat /\ h = 0) /\
  kvu x = (kvu_tag (Z.of_nat (S n)) + h) :: rev (le_bytes n (x mod 256 ^ Z.of_nat n)).
Proof.
  intros H. change (2 ^ 32) with 4294967296 in H.
  assert (G : forall n h, (n <= 4)%nat -> key_varuint32_size x = Z.of_nat (S n) -> h = x / 256 ^ Z.of_nat n -> (0 <= h < 2 ^ (7 - Z.of_nat n) \/ n = 4%nat /\ h = 0) ->
     kvu x = (kvu_tag (Z.of_nat (S n)) + h) :: rev (le_bytes n (x mod 256 ^ Z.of_nat n))).
  { intros n h Hn Es Eh Hh. unfold kvu. cbv zeta. rewrite Es. replace (Z.to_nat (Z.of_nat (S n) - 1)) with n by lia. rewrite kvu_rest_be, <- le_bytes_mod. f_equal.
    unfold key_varuint32_first. rewrite lor_mod256.
    assert (Hh8 : 0 <= h < 256) by (destruct Hh as [Hh|[_ ->]]; [|lia]; assert (2 ^ (7 - Z.of_nat n) <= 2 ^ 7) by (apply Z.pow_le_mono_r; lia); change (2 ^ 7) with 128 in *; lia).
    assert (Et : (2 ^ 32 - 1 - Z.shiftr 255 (Z.of_nat (S n) - 1)) mod 256 = kvu_tag (Z.of_nat (S n))) by (destruct n as [|[|[|[|[|]]]]]; [reflexivity..|lia]).
    rewrite Et. assert (Eb : (if Z.of_nat (S n) =? 5 then 0 else Z.shiftr x ((Z.of_nat (S n) - 1) * 8)) mod 256 = h).
    { destruct (Z.of_nat (S n) =? 5) eqn:E5.
      - assert (h = 0) by (destruct Hh as [Hh|[_ Hh]]; [|exact Hh]; assert (n = 4%nat) by lia; subst n; rewrite Eh; change (256 ^ Z.of_nat 4) with 4294967296; apply Z.div_small; lia). subst h. rewrite H0. reflexivity.
      - rewrite Z.shiftr_div_pow2 by lia. replace (2 ^ ((Z.of_nat (S n) - 1) * 8)) with (256 ^ Z.of_nat n); [rewrite <- Eh; apply Z.mod_small; exact Hh8|].
        replace ((Z.of_nat (S n) - 1) * 8) with (8 * Z.of_nat n) by lia. apply pow256. }
    rewrite Eb. assert (Hlt : n <> 4%nat -> 0 <= h < 2 ^ (7 - Z.of_nat n)) by (intros; destruct Hh as [Hh|[Hh _]]; [exact Hh|congruence]).
    destruct (Nat.eq_dec n 4) as [->|Hne].
    - assert (h = 0) as -> by (rewrite Eh; change (256 ^ Z.of_nat 4) with 4294967296; apply Z.div_small; lia). reflexivity.
    - apply tag_lor; [lia| |lia]. specialize (Hlt Hne). replace (8 - Z.of_nat (S n)) with (7 - Z.of_nat n) by lia. exact Hlt. }
  destruct (kvu_size_cases x H) as [[E R]|[[E R]|[[E R]|[[E R]|[E R]]]]].
  - exists 0%nat, x. assert (E1 : x = x / 256 ^ Z.of_nat 0) by (change (256 ^ Z.of_nat 0) with 1; rewrite Z.div_1_r; reflexivity).
    split; [exact E|]. split; [lia|]. split; [exact E1|]. assert (Q : 0 <= x < 2 ^ (7 - Z.of_nat 0) \/ 0%nat = 4%nat /\ x = 0) by (left; change (2 ^ (7 - Z.of_nat 0)) with 128; lia). split; [exact Q|]. apply G; auto; lia.
  - exists 1%nat, (x / 256). change (256 ^ Z.of_nat 1) with 256 in *. split; [exact E|]. split; [lia|]. split; [reflexivity|].
    assert (Q : 0 <= x / 256 < 2 ^ (7 - Z.of_nat 1) \/ 1%nat = 4%nat /\ x / 256 = 0) by (left; change (2 ^ (7 - Z.of_nat 1)) with 64; lia). split; [exact Q|]. apply (G 1%nat); auto; lia.
  - exists 2%nat, (x / 65536). change (256 ^ Z.of_nat 2) with 65536 in *. split; [exact E|]. split; [lia|]. split; [reflexivity|].
    assert (Q : 0 <= x / 65536 < 2 ^ (7 - Z.of_nat 2) \/ 2%nat = 4%nat /\ x / 65536 = 0) by (left; change (2 ^ (7 - Z.of_nat 2)) with 32; lia). split; [exact Q|]. apply (G 2%nat); auto.
  - exists 3%nat, (x / 16777216). change (256 ^ Z.of_nat 3) with 16777216 in *. split; [exact E|]. split; [lia|]. split; [reflexivity|].
    assert (Q : 0 <= x / 16777216 < 2 ^ (7 - Z.of_nat 3) \/ 3%nat = 4%nat /\ x / 16777216 = 0) by (left; change (2 ^ (7 - Z.of_nat 3)) with 16; lia). split; [exact Q|]. apply (G 3%nat); auto.
  - exists 4%nat, (x / 4294967296). change (256 ^ Z.of_nat 4) with 4294967296 in *. split; [exact E|]. split; [lia|]. split; [reflexivity|].
    assert (Q : 0 <= x / 4294967296 < 2 ^ (7 - Z.of_nat 4) \/ 4%nat = 4%nat /\ x / 4294967296 = 0) by (right; split; [reflexivity|apply Z.div_small; lia]). split; [exact Q|]. apply (G 4%nat); auto.
Qed.
Lemma ordk_head a b x y : a <> b -> ordk (a :: x) (b :: y) (a ?= b).
Proof.
  intros H. unfold ordk. destruct (a ?= b) eqn:E; [apply Z.compare_eq in E; congruence| |]; intros u v; cbn [app lexcmp]; rewrite E; reflexivity.
Qed.
Lemma ordk_vu x y : 0 <= x < 2 ^ 32 -> 0 <= y < 2 ^ 32 -> ordk (kvu x) (kvu y) (x ?= y).
Proof.
  intros Hx Hy. destruct (kvu_spec x Hx) as (n & h & Sx & Ln & Eh & Rh & Kx). destruct (kvu_spec y Hy) as (m & g & Sy & Lm & Eg & Rg & Ky).
  destruct (Nat.eq_dec n m) as [->|Hne].
  - rewrite Kx, Ky. change (ordk ([kvu_tag (Z.of_nat (S m)) + h] ++ rev (le_bytes m (x mod 256 ^ Z.of_nat m))) ([kvu_tag (Z.of_nat (S m)) + g] ++ rev (le_bytes m (y mod 256 ^ Z.of_nat m))) (x ?= y)).
    assert (P : 0 < 256 ^ Z.of_nat m) by (apply Z.pow_pos_nonneg; lia).
    assert (C : (x ?= y) = lexc (kvu_tag (Z.of_nat (S m)) + h ?= kvu_tag (Z.of_nat (S m)) + g) (x mod 256 ^ Z.of_nat m ?= y mod 256 ^ Z.of_nat m)).
    { pose proof (Z.div_mod x (256 ^ Z.of_nat m) ltac:(lia)) as Dx. pose proof (Z.div_mod y (256 ^ Z.of_nat m) ltac:(lia)) as Dy. rewrite <- Eh in Dx. rewrite <- Eg in Dy.
      pose proof (Z.mod_pos_bound x _ P) as Mx. pose proof (Z.mod_pos_bound y _ P) as My. remember (256 ^ Z.of_nat m) as M.
      destruct (Z.compare_spec (kvu_tag (Z.of_nat (S m)) + h) (kvu_tag (Z.of_nat (S m)) + g)) as [E|E|E]; cbn [lexc].
      - assert (h = g) by lia. subst h. rewrite H in Dx. destruct (Z.compare_spec (x mod M) (y mod M)); [apply Z.compare_eq_iff|apply Z.compare_lt_iff|apply Z.compare_gt_iff]; lia.
      - apply Z.compare_lt_iff. assert (h + 1 <= g) by lia. nia.
      - apply Z.compare_gt_iff. assert (g + 1 <= h) by lia. nia. }
    rewrite C. apply ordk_app; [apply ordk_byte|]. intros _. apply ordk_be; apply Z.mod_pos_bound; exact P.
  - assert (T : forall k q, (k <= 4)%nat -> (0 <= q < 2 ^ (7 - Z.of_nat k) \/ k = 4%nat /\ q = 0) -> kvu_tag (Z.of_nat (S k)) <= kvu_tag (Z.of_nat (S k)) + q < kvu_tag (Z.of_nat (S (S k))) \/ k = 4%nat /\ 240 <= kvu_tag (Z.of_nat (S k)) + q).
    { intros k q Hk Hq. destruct k as [|[|[|[|[|]]]]]; [| | | | |lia].
      - left. destruct Hq as [Hq|[Hq _]]; [|discriminate]. change (2 ^ (7 - Z.of_nat 0)) with 128 in Hq. change (kvu_tag (Z.of_nat 1)) with 0. change (kvu_tag (Z.of_nat 2)) with 128. lia.
      - left. destruct Hq as [Hq|[Hq _]]; [|discriminate]. change (2 ^ (7 - Z.of_nat 1)) with 64 in Hq. change (kvu_tag (Z.of_nat 2)) with 128. change (kvu_tag (Z.of_nat 3)) with 192. lia.
      - left. destruct Hq as [Hq|[Hq _]]; [|discriminate]. change (2 ^ (7 - Z.of_nat 2)) with 32 in Hq. change (kvu_tag (Z.of_nat 3)) with 192. change (kvu_tag (Z.of_nat 4)) with 224. lia.
      - left. destruct Hq as [Hq|[Hq _]]; [|discriminate]. change (2 ^ (7 - Z.of_nat 3)) with 16 in Hq. change (kvu_tag (Z.of_nat 4)) with 224. change (kvu_tag (Z.of_nat 5)) with 240. lia.
      - right. split; [reflexivity|]. change (kvu_tag (Z.of_nat 5)) with 240. destruct Hq as [Hq|[_ Hq]]; lia. }
    pose proof (T n h Ln Rh) as Tx. pose proof (T m g Lm Rg) as Ty.
    assert (F : (x ?= y) = (kvu_tag (Z.of_nat (S n)) + h ?= kvu_tag (Z.of_nat (S m)) + g) /\ x <> y).
    { assert (M : forall a b, (a < b)%nat -> (b <= 4)%nat -> kvu_tag (Z.of_nat (S (S a))) <= kvu_tag (Z.of_nat (S b))).
      { clear. intros a b H1 H2. destruct b as [|[|[|[|[|]]]]]; try lia; destruct a as [|[|[|[|]]]]; try lia; vm_compute; congruence. }
      assert (O : x < y <-> (n < m)%nat).
      { clear - Sx Sy Hne Hx Hy. destruct (kvu_size_cases x Hx) as [[E R]|[[E R]|[[E R]|[[E R]|[E R]]]]], (kvu_size_cases y Hy) as [[E' R']|[[E' R']|[[E' R']|[[E' R']|[E' R']]]]]; rewrite E in Sx; rewrite E' in Sy; lia. }
      assert (O' : x <> y) by (intros ->; lia). split; [|exact O'].
      destruct (Nat.lt_ge_cases n m) as [Lt|Ge].
      - pose proof (M n m Lt Lm). assert (x < y) by (apply O; exact Lt). assert (kvu_tag (Z.of_nat (S n)) + h < kvu_tag (Z.of_nat (S m)) + g) by lia.
        transitivity Datatypes.Lt; [apply Z.compare_lt_iff|symmetry; apply Z.compare_lt_iff]; assumption.
      - assert (Lt : (m < n)%nat) by lia. pose proof (M m n Lt Ln). assert (y < x) by lia. assert (kvu_tag (Z.of_nat (S m)) + g < kvu_tag (Z.of_nat (S n)) + h) by lia.
        transitivity Datatypes.Gt; [apply Z.compare_gt_iff|symmetry; apply Z.compare_gt_iff]; assumption. }
    destruct F as [F Fne]. rewrite Kx, Ky, F. apply ordk_head. intros Eq. rewrite Eq, Z.compare_refl in F. apply Z.compare_eq in F. congruence.
Qed.

(** Strings and containers *)
Lemma ordk_esc x y : is_byte x -> is_byte y -> ordk (esc x) (esc y) (x ?= y).
Proof.
  intros Hx Hy. destruct (Z.eq_dec x y) as [->|Hne]; [rewrite Z.compare_refl; reflexivity|]. apply ordk_head. exact Hne.
Qed.
Lemma ordk_end_esc y : is_byte y -> ordk [0; 0] (esc y) Lt.
Proof.
  intros H a b. unfold is_byte in H. unfold esc. destruct (y =? 0) eqn:E.
  - assert (y = 0) by lia. subst. reflexivity.
  - cbn [app lexcmp]. assert (C : (0 ?= y) = Lt) by (apply Z.compare_lt_iff; lia). rewrite C. reflexivity.
Qed.
Lemma ordk_sym a b c : ordk a b c -> ordk b a (CompOpp c).
Proof.
  unfold ordk. destruct c; cbn [CompOpp]; [congruence| |]; intros H x y; specialize (H y x); rewrite lexcmp_lexl in *;
    rewrite lexl_antisym by (apply Forall_forall; intros; apply Z.compare_antisym); rewrite H; reflexivity.
Qed.
Lemma ordk_esc_end y : is_byte y -> ordk (esc y) [0; 0] Gt.
Proof. intros H. apply (ordk_sym _ _ _ (ordk_end_esc y H)). Qed.
Lemma ordk_string a : forall b, bytes_ok a -> bytes_ok b -> ordk (flat_map esc a ++ [0; 0]) (flat_map esc b ++ [0; 0]) (lexcmp a b).
Proof.
  induction a as [|x a IH]; intros [|y b] Ha Hb; cbn [flat_map lexcmp].
  - reflexivity.
  - inversion Hb; subst. change ([] ++ [0; 0]) with ([0; 0] ++ []). rewrite <- app_assoc. apply (ordk_app _ _ Lt _ _ Eq); [apply ordk_end_esc; auto|discriminate].
  - inversion Ha; subst. change ([] ++ [0; 0]) with ([0; 0] ++ []). rewrite <- app_assoc. apply (ordk_app _ _ Gt _ _ Eq); [apply ordk_esc_end; auto|discriminate].
  - inversion Ha; inversion Hb; subst. rewrite <- !app_assoc. replace (match x ?= y with Eq => lexcmp a b | c => c end) with (lexc (x ?= y) (lexcmp a b)) by (destruct (x ?= y); reflexivity).
    apply ordk_app; [apply ordk_esc; auto|]. intros _. apply IH; auto.
Qed.

(** [ok2 f a b]: both values have keys, ordered like the values. *)
Definition ok2 (f : val -> res bytes) (a b : val) : Prop := exists ka kb, f a = Ok ka /\ f b = Ok kb /\ ordk ka kb (vcmp a b).
Lemma seq_order f term l : forall m,
  (forall x y, In x l -> In y m -> ok2 f x y) -> (forall x, In x l -> exists k, f x = Ok k /\ ordk term k Lt) -> (forall x, In x m -> exists k, f x = Ok k /\ ordk term k Lt) ->
  exists ka kb, enc_seq f l = Ok ka /\ enc_seq f m = Ok kb /\ ordk (ka ++ term) (kb ++ term) (lexl vcmp l m).
Proof.
  assert (T : forall m, (forall x, In x m -> exists k, f x = Ok k /\ ordk term k Lt) -> exists k, enc_seq f m = Ok k).
  { induction m as [|y m IHm]; intros H; [eexists; reflexivity|]. destruct (H y (or_introl eq_refl)) as (k & E & _). destruct IHm as (k' & E'); [intros; apply H; right; assumption|].
    cbn [enc_seq]. rewrite E, E'. eexists; reflexivity. }
  induction l as [|x l IH]; intros [|y m] H Hl Hm.
  - exists [], []. cbn [enc_seq lexl]. split; [reflexivity|]. split; reflexivity.
  - destruct (T (y :: m) Hm) as (k & E). exists [], k. split; [reflexivity|]. split; [exact E|]. cbn [lexl app].
    destruct (Hm y (or_introl eq_refl)) as (ky & Ey & Oy). destruct (T m) as (km & Em); [intros; apply Hm; right; assumption|].
    cbn [enc_seq] in E. rewrite Ey, Em in E. cbn [eapp bind] in E. assert (k = ky ++ km) by congruence. subst k. rewrite <- app_assoc. rewrite <- (app_nil_r term) at 1.
    apply (ordk_app _ _ Lt _ _ Eq); [exact Oy|discriminate].
  - destruct (T (x :: l) Hl) as (k & E). exists k, []. split; [exact E|]. split; [reflexivity|]. cbn [lexl app].
    destruct (Hl x (or_introl eq_refl)) as (ky & Ey & Oy). destruct (T l) as (km & Em); [intros; apply Hl; right; assumption|].
    cbn [enc_seq] in E. rewrite Ey, Em in E. cbn [eapp bind] in E. assert (k = ky ++ km) by congruence. subst k. rewrite <- app_assoc. rewrite <- (app_nil_r term) at 2.
    apply (ordk_app _ _ Gt _ _ Eq); [apply (ordk_sym _ _ _ Oy)|discriminate].
  - destruct (H x y (or_introl eq_refl) (or_introl eq_refl)) as (ka & kb & Ea & Eb & O).
    destruct (IH m) as (ka' & kb' & Ea' & Eb' & O'); [intros; apply H; right; assumption|intros; apply Hl; right; assumption|intros; apply Hm; right; assumption|].
    exists (ka ++ ka'), (kb ++ kb'). cbn [enc_seq]. rewrite Ea, Ea', Eb, Eb'. split; [reflexivity|]. split; [reflexivity|].
    cbn [lexl]. rewrite <- !app_assoc. change (ordk (ka ++ ka' ++ term) (kb ++ kb' ++ term) (lexc (vcmp x y) (lexl vcmp l m))) || replace (match vcmp x y with Eq => lexl vcmp l m | c => c end) with (lexc (vcmp x y) (lexl vcmp l m)) by (destruct (vcmp x y); reflexivity).
    apply ordk_app; [exact O|]. intros _. exact O'.
Qed.
Lemma arr_order f l : forall m, List.length l = List.length m -> (forall x y, In x l -> In y m -> ok2 f x y) ->
  exists ka kb, enc_seq f l = Ok ka /\ enc_seq f m = Ok kb /\ ordk ka kb (lexl vcmp l m).
Proof.
  induction l as [|x l IH]; intros [|y m] HL H; try discriminate.
  - exists [], []. split; [reflexivity|]. split; reflexivity.
  - destruct (H x y (or_introl eq_refl) (or_introl eq_refl)) as (ka & kb & Ea & Eb & O). injection HL as HL.
    destruct (IH m HL) as (ka' & kb' & Ea' & Eb' & O'); [intros; apply H; right; assumption|].
    exists (ka ++ ka'), (kb ++ kb'). cbn [enc_seq]. rewrite Ea, Ea', Eb, Eb'. split; [reflexivity|]. split; [reflexivity|].
    cbn [lexl]. replace (match vcmp x y with Eq => lexl vcmp l m | c => c end) with (lexc (vcmp x y) (lexl vcmp l m)) by (destruct (vcmp x y); reflexivity).
    apply ordk_app; [exact O|]. intros _. exact O'.
Qed.
Lemma tuple_order ts (w : ty -> val -> bool) (f : ty -> val -> res bytes) :
  Forall (fun t => keyable t = true -> forall a b, w t a = true -> w t b = true -> ok2 (f t) a b) ts -> forallb keyable ts = true ->
  forall l m, forallb2 (map w ts) l = true -> forallb2 (map w ts) m = true ->
  exists ka kb, enc_tuple (map f ts) l = Ok ka /\ enc_tuple (map f ts) m = Ok kb /\ ordk ka kb (lexl vcmp l m).
Proof.
  intros H. induction H as [|t ts Ht _ IH]; intros K [|x l] [|y m] Hl Hm; cbn [map forallb2] in *; try discriminate.
  - exists [], []. split; [reflexivity|]. split; reflexivity.
  - cbn [forallb] in K. apply andb_prop in K as [K1 K2]. apply andb_prop in Hl as [Hx Hl]. apply andb_prop in Hm as [Hy Hm].
    destruct (Ht K1 x y Hx Hy) as (ka & kb & Ea & Eb & O). destruct (IH K2 l m Hl Hm) as (ka' & kb' & Ea' & Eb' & O').
    exists (ka ++ ka'), (kb ++ kb'). cbn [enc_tuple]. rewrite Ea, Ea', Eb, Eb'. split; [reflexivity|]. split; [reflexivity|].
    cbn [lexl]. replace (match vcmp x y with Eq => lexl vcmp l m | c => c end) with (lexc (vcmp x y) (lexl vcmp l m)) by (destruct (vcmp x y); reflexivity).
    apply ordk_app; [exact O|]. intros _. exact O'.
Qed.
Lemma one_byte_enc ref1 ref2 t x : one_byte t = true -> wf_with ref1 t x = true -> exists c, kenc_with ref2 t x = Ok [c] /\ is_byte c.
Proof.
  intros H W. destruct t; try discriminate.
  - cbn [one_byte] in H. assert (size = 1%nat) as -> by (destruct size as [|[|]]; try discriminate; reflexivity).
    destruct x; try discriminate. cbn [wf_with] in W. cbn [kenc_with]. destruct (key_int_val _ _ _ W) as [-> R]. eexists. split; [reflexivity|]. apply Z.mod_pos_bound. lia.
  - destruct x as [|b| | | | |]; try discriminate. exists (if b then 1 else 0). split; [reflexivity|]. unfold is_byte. destruct b; lia.
Qed.
Lemma kopt_order ref1 ref2 t : (forall a b, wf_with ref1 t a = true -> wf_with ref1 t b = true -> ok2 (kenc_with ref2 t) a b) ->
  (forall a b, wf_with ref1 t a = true -> wf_with ref1 t b = true -> ok2 (fun x => kopt t (kenc_with ref2 t) (Some x)) a b) /\
  exists term, kopt t (kenc_with ref2 t) None = Ok term /\
    (forall x, wf_with ref1 t x = true -> exists k, kopt t (kenc_with ref2 t) (Some x) = Ok k /\ ordk term k Lt).
Proof.
  intros IH. unfold kopt. destruct (one_byte t) eqn:E1.
  - split.
    + intros a b Ha Hb. destruct (IH a b Ha Hb) as (ka & kb & Ea & Eb & O). destruct (one_byte_enc ref1 ref2 t a E1 Ha) as (c & Ec & Bc). destruct (one_byte_enc ref1 ref2 t b E1 Hb) as (d & Ed & Bd).
      exists (esc c), (esc d). unfold kopt. rewrite Ec, Ed. split; [reflexivity|]. split; [reflexivity|].
      assert (ka = [c]) by congruence. assert (kb = [d]) by congruence. subst ka kb.
      assert (C : vcmp a b = (c ?= d)).
      { destruct (vcmp a b) eqn:V; cbn [ordk] in O.
        - assert (c = d) by congruence. subst. symmetry. apply Z.compare_refl.
        - specialize (O [] []). cbn [app lexcmp] in O. destruct (c ?= d); congruence.
        - specialize (O [] []). cbn [app lexcmp] in O. destruct (c ?= d); congruence. }
      rewrite C. apply ordk_esc; auto.
    + exists [0; 0]. split; [reflexivity|]. intros x Hx. destruct (one_byte_enc ref1 ref2 t x E1 Hx) as (c & Ec & Bc). rewrite Ec. eexists. split; [reflexivity|]. apply ordk_end_esc. exact Bc.
  - split.
    + intros a b Ha Hb. destruct (IH a b Ha Hb) as (ka & kb & Ea & Eb & O). exists (1 :: ka), (1 :: kb). unfold kopt. rewrite Ea, Eb. split; [reflexivity|]. split; [reflexivity|].
      apply (ordk_app [1] [1] Eq ka kb (vcmp a b)); [reflexivity|]. intros _. exact O.
    + exists [0]. split; [reflexivity|]. intros x Hx. destruct (IH x x Hx Hx) as (ka & _ & Ea & _ & _). rewrite Ea. eexists. split; [reflexivity|]. intros u v. reflexivity.
Qed.
Lemma key_order_with ref1 ref2 : (forall n a b, ref1 n a = true -> ref1 n b = true -> ok2 (ref2 n) a b) ->
  forall t, keyable t = true -> forall a b, wf_with ref1 t a = true -> wf_with ref1 t b = true -> ok2 (kenc_with ref2 t) a b.
Proof.
  intros Href t. induction t as
    [sg n| |n| | | | |t IH|t IH|t IH|k t IHk IHt|n t IH|n t IH|t IH|ts IH|ts IH|t IH|k t IH|n] using ty_ind';
  intros K a b Ha Hb; cbn [keyable] in K; try discriminate K.
  - destruct a, b; try discriminate. cbn [wf_with] in *. do 2 eexists. split; [reflexivity|]. split; [reflexivity|]. apply ordk_int; auto.
  - destruct a as [|x| | | | |], b as [|y| | | | |]; try discriminate. do 2 eexists. split; [reflexivity|]. split; [reflexivity|]. cbn [vcmp].
    replace (Z.b2z x ?= Z.b2z y) with ((if x then 1 else 0) ?= (if y then 1 else 0)) by (destruct x, y; reflexivity). apply ordk_byte.
  - destruct a, b; try discriminate. cbn [wf_with] in *. unfold fits_u in *. assert (size = n) by lia. assert (size0 = n) by lia. subst.
    do 2 eexists. split; [reflexivity|]. split; [reflexivity|]. cbn [vcmp]. rewrite Nat.compare_refl. apply ordk_float; lia.
  - destruct a, b; try discriminate. cbn [wf_with] in *. unfold fits_u in *. do 2 eexists. split; [reflexivity|]. split; [reflexivity|]. apply ordk_vu; lia.
  - destruct a, b; try discriminate. cbn [wf_with] in *. apply andb_prop in Ha as [Ha _]. apply andb_prop in Hb as [Hb _].
    do 2 eexists. split; [reflexivity|]. split; [reflexivity|]. cbn [vcmp]. apply ordk_string; apply bytes_okb_spec; auto.
  - destruct a, b; try discriminate. cbn [wf_with] in *. apply andb_prop in Ha as [_ Ha]. apply andb_prop in Hb as [_ Hb]. rewrite forallb_forall in Ha, Hb.
    destruct (kopt_order ref1 ref2 t (IH K)) as (Q1 & term & Et & Q2). unfold ok2. cbn [kenc_with]. rewrite Et, vcmp_list.
    destruct (seq_order (fun x => kopt t (kenc_with ref2 t) (Some x)) term l l0) as (ka & kb & Ea & Eb & O); auto.
    rewrite Ea, Eb. do 2 eexists. split; [reflexivity|]. split; [reflexivity|]. exact O.
  - destruct a, b; try discriminate. cbn [wf_with] in *. apply andb_prop in Ha as [_ Ha]. apply andb_prop in Hb as [_ Hb]. rewrite forallb_forall in Ha, Hb.
    destruct (kopt_order ref1 ref2 t (IH K)) as (Q1 & term & Et & Q2). unfold ok2. cbn [kenc_with]. rewrite Et, vcmp_list.
    destruct (seq_order (fun x => kopt t (kenc_with ref2 t) (Some x)) term l l0) as (ka & kb & Ea & Eb & O); auto.
    rewrite Ea, Eb. do 2 eexists. split; [reflexivity|]. split; [reflexivity|]. exact O.
  - destruct a, b; try discriminate. cbn [wf_with] in *. apply andb_prop in Ha as [Ha _]. apply andb_prop in Hb as [Hb _]. apply andb_prop in Ha as [_ Ha]. apply andb_prop in Hb as [_ Hb]. rewrite forallb_forall in Ha, Hb.
    destruct (kopt_order ref1 ref2 t (IH K)) as (Q1 & term & Et & Q2). unfold ok2. cbn [kenc_with]. rewrite Et, vcmp_list.
    destruct (seq_order (fun x => kopt t (kenc_with ref2 t) (Some x)) term l l0) as (ka & kb & Ea & Eb & O); auto.
    rewrite Ea, Eb. do 2 eexists. split; [reflexivity|]. split; [reflexivity|]. exact O.
  - destruct a, b; try discriminate. cbn [wf_with] in *. apply andb_prop in Ha as [Ha _]. apply andb_prop in Hb as [Hb _]. apply andb_prop in Ha as [_ Ha]. apply andb_prop in Hb as [_ Hb]. rewrite forallb_forall in Ha, Hb.
    apply andb_prop in K as [Kk Kt]. unfold ok2. cbn [kenc_with]. rewrite vcmp_list.
    assert (P : forall x y, In x l -> In y l0 \/ In y l -> ok2 (kpair (kenc_with ref2 k) (kenc_with ref2 t)) x y).
    { intros x y Hx Hy. specialize (Ha x Hx) as Wx. assert (Wy : match y with VList [p; q] => wf_with ref1 k p && wf_with ref1 t q | _ => false end = true) by (destruct Hy; auto).
      destruct x as [| | | |[|p [|q [|]]]| |]; try discriminate. destruct y as [| | | |[|p' [|q' [|]]]| |]; try discriminate. apply andb_prop in Wx as [W1 W2]. apply andb_prop in Wy as [W3 W4].
      destruct (IHk Kk p p' W1 W3) as (kp & kp' & E1 & E2 & O1). destruct (IHt Kt q q' W2 W4) as (kq & kq' & E3 & E4 & O2).
      exists (1 :: kp ++ kq), (1 :: kp' ++ kq'). cbn [kpair]. rewrite E1, E2, E3, E4. split; [reflexivity|]. split; [reflexivity|].
      rewrite vcmp_list. cbn [lexl].
      replace (match vcmp p p' with Eq => match vcmp q q' with Eq => Eq | c => c end | c => c end) with (lexc (vcmp p p') (vcmp q q')) by (destruct (vcmp p p'), (vcmp q q'); reflexivity).
      apply (ordk_app [1] [1] Eq (kp ++ kq) (kp' ++ kq') (lexc (vcmp p p') (vcmp q q'))); [reflexivity|]. intros _.
      apply ordk_app; [exact O1|]. intros _. exact O2. }
    assert (T : forall x, In x l \/ In x l0 -> exists k0, kpair (kenc_with ref2 k) (kenc_with ref2 t) x = Ok k0 /\ ordk [0] k0 Lt).
    { intros x Hx. assert (Wx : match x with VList [p; q] => wf_with ref1 k p && wf_with ref1 t q | _ => false end = true) by (destruct Hx; auto).
      destruct x as [| | | |[|p [|q [|]]]| |]; try discriminate. apply andb_prop in Wx as [W1 W2]. destruct (IHk Kk p p W1 W1) as (kp & _ & E1 & _). destruct (IHt Kt q q W2 W2) as (kq & _ & E3 & _).
      cbn [kpair]. rewrite E1, E3. eexists. split; [reflexivity|]. intros u v. reflexivity. }
    destruct (seq_order (kpair (kenc_with ref2 k) (kenc_with ref2 t)) [0] l l0) as (ka & kb & Ea & Eb & O); auto.
    rewrite Ea, Eb. do 2 eexists. split; [reflexivity|]. split; [reflexivity|]. exact O.
  - destruct a, b; try discriminate. cbn [wf_with] in *. apply andb_prop in Ha as [La Ha]. apply andb_prop in Hb as [Lb Hb]. rewrite forallb_forall in Ha, Hb. apply Nat.eqb_eq in La, Lb.
    unfold ok2. cbn [kenc_with]. rewrite vcmp_list. apply arr_order; [congruence|]. intros x y Hx Hy. apply IH; auto.
  - destruct a as [| | | | |oa|], b as [| | | | |ob|]; try (destruct oa; discriminate Ha); try discriminate; try (destruct oa; discriminate).
    destruct (kopt_order ref1 ref2 t (IH K)) as (Q1 & term & Et & Q2). unfold ok2. cbn [kenc_with].
    destruct oa as [x|], ob as [y|]; cbn [wf_with] in *.
    + destruct (Q1 x y Ha Hb) as (ka & kb & Ea & Eb & O). exists ka, kb. split; [exact Ea|]. split; [exact Eb|]. exact O.
    + destruct (Q2 x Ha) as (kx & Ex & O). exists kx, term. split; [exact Ex|]. split; [exact Et|]. apply (ordk_sym _ _ _ O).
    + destruct (Q2 y Hb) as (kx & Ex & O). exists term, kx. split; [exact Et|]. split; [exact Ex|]. exact O.
    + exists term, term. split; [exact Et|]. split; [exact Et|]. reflexivity.
  - destruct a as [| | | | | |i x], b as [| | | | | |j y]; try discriminate. cbn [wf_with] in *. apply andb_prop in Ha as [Ia Ha]. apply andb_prop in Hb as [Ib Hb]. unfold fits_u in *.
    assert (S : forall i x, match nthz (map (wf_with ref1) ts) i with Some f => f x | None => false end = true ->
              exists t, nthz ts i = Some t /\ In t ts /\ wf_with ref1 t x = true /\ nthz (map (kenc_with ref2) ts) i = Some (kenc_with ref2 t)).
    { clear. induction ts as [|t ts IH]; intros i x H; cbn [map nthz] in *; [discriminate|]. destruct (i =? 0); [exists t; cbn [In]; auto|].
      destruct (IH (i - 1) x H) as (t' & E1 & E2 & E3 & E4). exists t'. cbn [In]. auto. }
    destruct (S i x Ha) as (t1 & N1 & I1 & W1 & E1). destruct (S j y Hb) as (t2 & N2 & I2 & W2 & E2).
    rewrite Forall_forall in IH. rewrite forallb_forall in K.
    unfold ok2. cbn [kenc_with]. rewrite E1, E2. cbn [vcmp].
    destruct (IH t1 I1 (K t1 I1) x x W1 W1) as (kx & _ & Ex & _). destruct (IH t2 I2 (K t2 I2) y y W2 W2) as (ky & _ & Ey & _).
    rewrite Ex, Ey. exists (kvu i ++ kx), (kvu j ++ ky). split; [reflexivity|]. split; [reflexivity|].
    replace (match i ?= j with Eq => vcmp x y | c => c end) with (lexc (i ?= j) (vcmp x y)) by (destruct (i ?= j); reflexivity).
    apply ordk_app; [apply ordk_vu; lia|]. intros Eij. apply Z.compare_eq in Eij. subst j. assert (t2 = t1) by congruence. subst t2.
    destruct (IH t1 I1 (K t1 I1) x y W1 W2) as (kx' & ky' & Ex' & Ey' & O). assert (kx' = kx) by congruence. assert (ky' = ky) by congruence. subst. exact O.
  - destruct a, b; try discriminate. cbn [wf_with] in *. unfold ok2. cbn [kenc_with]. rewrite vcmp_list. apply (tuple_order ts (wf_with ref1) (kenc_with ref2)); auto.
  - assert (Ha' : wf_with ref1 t a = true) by (destruct a; exact Ha). assert (Hb' : wf_with ref1 t b = true) by (destruct b; exact Hb).
    destruct (IH K a b Ha' Hb') as (ka & kb & Ea & Eb & O). exists ka, kb. split; [destruct a; exact Ea|]. split; [destruct b; exact Eb|]. exact O.
  - assert (Ha' : ref1 n a = true) by (destruct a; exact Ha). assert (Hb' : ref1 n b = true) by (destruct b; exact Hb).
    destruct (Href n a b Ha' Hb') as (ka & kb & Ea & Eb & O). exists ka, kb. split; [destruct a; exact Ea|]. split; [destruct b; exact Eb|]. exact O.
Qed.
Lemma key_order env fuel : (forall n, keyable (env n) = true) -> forall t, keyable t = true -> forall a b, wf env fuel t a = true -> wf env fuel t b = true -> ok2 (kenc env fuel t) a b.
Proof.
  intros He. induction fuel as [|fuel IH]; intros t K a b; rewrite wf_unfold, kenc_unfold; apply key_order_with; auto.
  intros; discriminate.
Qed.
