(** * Facts about RIPEMD-160: the streaming code computes the published function. *)
From Verif Require Import Base Ripemd160 RipemdSpec.

Lemma fold_pair {A B C} (g : A -> C -> A) (h : B -> C -> B) l : forall a b,
  fold_left (fun (v : A * B) j => (g (fst v) j, h (snd v) j)) l (a, b) = (fold_left g l a, fold_left h l b).
Proof. induction l as [|x l IH]; intros a b; [reflexivity|]. cbn [fold_left fst snd]. apply IH. Qed.
Lemma fold_ext {A C} (g h : A -> C -> A) l : (forall a x, In x l -> g a x = h a x) -> forall a, fold_left g l a = fold_left h l a.
Proof. induction l as [|x l IH]; intros H a; [reflexivity|]. cbn [fold_left]. rewrite (H a x) by (left; auto). apply IH. intros; apply H; right; auto. Qed.
Lemma fold_shift {A} (g : A -> nat -> A) n k a : fold_left g (seq k n) a = fold_left (fun a w => g a (k + w)%nat) (seq 0 n) a.
Proof.
  revert k a g. induction n as [|n IH]; intros k a g; [reflexivity|]. cbn [seq fold_left]. rewrite IH, (IH 1%nat). rewrite Nat.add_0_r. apply fold_ext. intros b x _. f_equal. lia.
Qed.

Lemma step_rstep g s x k v : step g s x k v = rstep g s x k v.
Proof.
  destruct v as [[[[A B] C] D] E]. unfold step, rstep. cbv zeta.
  assert (X : plus32 (plus32 (plus32 A (g B C D)) x) k = w32 (A + g B C D + x + k)).
  { unfold plus32, w32, word_mod. rewrite Zplus_mod_idemp_l. rewrite <- Z.add_assoc, Zplus_mod_idemp_l, <- !Z.add_assoc. reflexivity. }
  rewrite X. reflexivity.
Qed.

(** One round of the left line, of the right line. *)
Definition Lf (round : nat) := nth round [F1; F2; F3; F4; F5] F1.
Definition Rf (round : nat) := nth round [F5; F4; F3; F2; F1] F1.
Lemma all_below n (P : nat -> Prop) : (forall i, In i (seq 0 n) -> P i) -> forall i, (i < n)%nat -> P i.
Proof. intros H i Hi. apply H, in_seq. lia. Qed.
Ltac each_in H := cbn [seq In] in H; repeat (destruct H as [<-|H]); [..|destruct H].
Lemma left_tables round w : (round < 5)%nat -> (w < 16)%nat ->
  let j := (16 * round + w)%nat in
  f j = Lf round /\ shift_of (j / 16) (r_left j) = nth w (nth round SL []) 0 /\
  r_left j = nth w (nth round RL []) 0%nat /\ K_left j = nth round KL 0.
Proof.
  intros Hr Hw. revert w Hw. revert round Hr. 
  assert (G : forall round, In round (seq 0 5) -> forall w, In w (seq 0 16) -> let j := (16 * round + w)%nat in
    f j = Lf round /\ shift_of (j / 16) (r_left j) = nth w (nth round SL []) 0 /\
  r_left j = nth w (nth round RL []) 0%nat /\ K_left j = nth round KL 0).
  { intros round Hr w Hw. each_in Hr; each_in Hw; repeat split; reflexivity. }
  intros round Hr w Hw. apply G; apply in_seq; lia.
Qed.
Lemma right_tables round w : (round < 5)%nat -> (w < 16)%nat ->
  let j := (16 * round + w)%nat in
  f (79 - j) = Rf round /\ shift_of (j / 16) (r_right j) = nth w (nth round SR []) 0 /\
  r_right j = nth w (nth round RR []) 0%nat /\ K_right j = nth round KR 0.
Proof.
  intros Hr Hw. revert w Hw. revert round Hr. 
  assert (G : forall round, In round (seq 0 5) -> forall w, In w (seq 0 16) -> let j := (16 * round + w)%nat in
    f (79 - j) = Rf round /\ shift_of (j / 16) (r_right j) = nth w (nth round SR []) 0 /\
  r_right j = nth w (nth round RR []) 0%nat /\ K_right j = nth round KR 0).
  { intros round Hr w Hw. each_in Hr; each_in Hw; repeat split; reflexivity. }
  intros round Hr w Hw. apply G; apply in_seq; lia.
Qed.

Definition lstep (b : bytes) (v : words) (j : nat) : words := step (f j) (shift_of (j / 16) (r_left j)) (X b (r_left j)) (K_left j) v.
Definition rrstep (b : bytes) (v : words) (j : nat) : words := step (f (79 - j)) (shift_of (j / 16) (r_right j)) (X b (r_right j)) (K_right j) v.
Lemma left_round b round v : (round < 5)%nat -> fold_left (lstep b) (seq (16 * round) 16) v = rloop (Lf round) SL RL KL round b v.
Proof.
  intros H. rewrite fold_shift. unfold rloop. apply fold_ext. intros a w Hw. apply in_seq in Hw. unfold lstep.
  destruct (left_tables round w H) as (E1 & E2 & E3 & E4); [lia|]. rewrite E2, E4, E1, E3. apply step_rstep.
Qed.
Lemma right_round b round v : (round < 5)%nat -> fold_left (rrstep b) (seq (16 * round) 16) v = rloop (Rf round) SR RR KR round b v.
Proof.
  intros H. rewrite fold_shift. unfold rloop. apply fold_ext. intros a w Hw. apply in_seq in Hw. unfold rrstep.
  destruct (right_tables round w H) as (E1 & E2 & E3 & E4); [lia|]. rewrite E2, E4, E1, E3. apply step_rstep.
Qed.
Lemma seq80 : seq 0 80 = seq (16 * 0) 16 ++ seq (16 * 1) 16 ++ seq (16 * 2) 16 ++ seq (16 * 3) 16 ++ seq (16 * 4) 16.
Proof. reflexivity. Qed.

Definition wlist (h : words) : list Z := let '(a, b, c, d, e) := h in [a; b; c; d; e].
Lemma compress_spec h len b :
  ripemd160_compress {| magic := ripemd160_magic; hh := wlist h; rlength := len; buf := b; bufpos := 64 |} =
  {| magic := ripemd160_magic; hh := wlist (compress h b); rlength := len; buf := repeat 0 64; bufpos := 0 |}.
Proof.
  destruct h as [[[[h0 h1] h2] h3] h4]. unfold ripemd160_compress. cbn [magic bufpos hh buf rlength wlist nth].
  rewrite Z.eqb_refl, Nat.eqb_refl. cbn [negb orb]. cbv zeta.
  unfold compress, steps.
  change (fun (v : words * words) (j : nat) => (step (f j) (shift_of (j / 16) (r_left j)) (X b (r_left j)) (K_left j) (fst v),
       step (f (79 - j)) (shift_of (j / 16) (r_right j)) (X b (r_right j)) (K_right j) (snd v)))
    with (fun (v : words * words) (j : nat) => (lstep b (fst v) j, rrstep b (snd v) j)).
  rewrite fold_pair, seq80, !fold_left_app. rewrite !left_round, !right_round by lia.
  unfold Lf, Rf. cbn [nth].
  destruct (rloop F5 SL RL KL 4 b _) as [[[[AL BL] CL] DL] EL].
  destruct (rloop F1 SR RR KR 4 b _) as [[[[AR BR] CR] DR] ER].
  unfold wlist, plus32, w32, word_mod. rewrite !Zplus_mod_idemp_l. reflexivity.
Qed.

(** ** Blocks *)
Lemma skipn_skipn' {A} a b (l : list A) : skipn a (skipn b l) = skipn (b + a) l.
Proof. revert l. induction b as [|b IH]; intros l; [reflexivity|]. destruct l as [|x l]; [rewrite !skipn_nil; reflexivity|]. cbn [skipn Nat.add]. apply IH. Qed.
Lemma blocks_app a b m : blocks (a + b) m = blocks a m ++ blocks b (skipn (64 * a) m).
Proof.
  revert m. induction a as [|a IH]; intros m; [reflexivity|]. cbn [Nat.add blocks app]. rewrite IH, skipn_skipn'.
  replace (64 + 64 * a)%nat with (64 * S a)%nat by lia. reflexivity.
Qed.
Lemma blocks_prefix a m n : (64 * a <= List.length m)%nat -> blocks a (m ++ n) = blocks a m.
Proof.
  revert m. induction a as [|a IH]; intros m H; [reflexivity|]. cbn [blocks]. rewrite firstn_app, skipn_app.
  replace (64 - List.length m)%nat with 0%nat by lia. rewrite firstn_O, app_nil_r, skipn_O. f_equal. apply IH. rewrite skipn_length. lia.
Qed.
Lemma blocks_snoc a m b : List.length m = (64 * a)%nat -> List.length b = 64%nat -> blocks (a + 1) (m ++ b) = blocks a m ++ [b].
Proof.
  intros H Hb. rewrite blocks_app, blocks_prefix by lia. f_equal. cbn [blocks]. f_equal.
  rewrite skipn_app, skipn_all2 by lia. replace (64 * a - List.length m)%nat with 0%nat by lia. cbn [skipn app].
  apply firstn_all2. lia.
Qed.

(** [m = full ++ rest] with [full] made of whole blocks already absorbed and [rest] in the buffer. *)
Definition inv (s : rstate) (m : bytes) : Prop :=
  exists k full rest, m = full ++ rest /\ List.length full = (64 * k)%nat /\ (List.length rest < 64)%nat /\
  s = {| magic := ripemd160_magic; hh := wlist (fold_left compress (blocks k full) IV);
         rlength := (8 * Z.of_nat (List.length m)) mod 2 ^ 64;
         buf := rest ++ repeat 0 (64 - List.length rest); bufpos := List.length rest |}.
Lemma init_inv : inv ripemd160_init [].
Proof. exists 0%nat, [], []. repeat split; cbn [List.length]; lia. Qed.
Lemma splice_rest rest d : (List.length rest + List.length d <= 64)%nat ->
  splice (rest ++ repeat 0 (64 - List.length rest)) (List.length rest) d = (rest ++ d) ++ repeat 0 (64 - (List.length rest + List.length d)).
Proof.
  intros H. unfold splice. rewrite firstn_app, Nat.sub_diag, firstn_O, app_nil_r, firstn_all, <- app_assoc. f_equal. f_equal.
  rewrite skipn_app, skipn_all2 by lia. cbn [app]. replace (List.length rest + List.length d - List.length rest)%nat with (List.length d) by lia.
  replace (64 - List.length rest)%nat with (List.length d + (64 - (List.length rest + List.length d)))%nat by lia.
  rewrite repeat_app, skipn_app, skipn_all2, repeat_length by (rewrite repeat_length; lia). rewrite Nat.sub_diag. reflexivity.
Qed.
Lemma len_step a n c : ((8 * a) mod 2 ^ 64 + n * 8) mod 18446744073709551616 = (8 * (a + n)) mod 2 ^ 64 -> c = a + n ->
  ((8 * a) mod 2 ^ 64 + n * 8) mod 18446744073709551616 = (8 * c) mod 2 ^ 64.
Proof. intros H ->. exact H. Qed.
Lemma len_step' a n : ((8 * a) mod 2 ^ 64 + n * 8) mod 18446744073709551616 = (8 * (a + n)) mod 2 ^ 64.
Proof. change 18446744073709551616 with (2 ^ 64). rewrite Zplus_mod_idemp_l. f_equal. lia. Qed.
Lemma update_loop_inv fuel : forall s m p, inv s m -> (List.length p <= fuel)%nat -> inv (update_loop fuel s p) (m ++ p).
Proof.
  induction fuel as [|fuel IH]; intros s m p Hi Hf.
  - destruct p; [|cbn [List.length] in Hf; lia]. rewrite app_nil_r. exact Hi.
  - cbn [update_loop]. destruct p as [|c p0] eqn:Ep; [rewrite app_nil_r; exact Hi|].
    rewrite <- Ep in *. assert (Hp : (0 < List.length p)%nat) by (rewrite Ep; cbn [List.length]; lia). clear c p0 Ep.
    destruct Hi as (k & full & rest & Em & Hk & Hr & ->). cbn [bufpos magic hh rlength buf]. cbv zeta.
    remember (64 - List.length rest)%nat as needed eqn:En.
    destruct (Nat.leb needed (List.length p)) eqn:El.
    + apply Nat.leb_le in El. rewrite En at 2. rewrite splice_rest by (rewrite firstn_length; lia).
      rewrite firstn_length. replace (64 - (List.length rest + Nat.min needed (List.length p)))%nat with 0%nat by lia.
      cbn [repeat]. rewrite app_nil_r. replace (List.length rest + needed)%nat with 64%nat by lia.
      rewrite compress_spec. 
      assert (Ei : m ++ p = (m ++ firstn needed p) ++ skipn needed p) by (rewrite <- app_assoc, firstn_skipn; reflexivity).
      rewrite Ei. apply IH; [|rewrite skipn_length; lia].
      exists (k + 1)%nat, (m ++ firstn needed p), []. rewrite app_nil_r.
      assert (Lm : List.length (m ++ firstn needed p) = (64 * (k + 1))%nat) by (rewrite Em, !app_length, firstn_length; lia).
      split; [reflexivity|]. split; [exact Lm|]. split; [cbn [List.length]; lia|].
      rewrite len_step'. rewrite Lm. cbn [List.length app]. 
      replace (m ++ firstn needed p) with (full ++ (rest ++ firstn needed p)) by (rewrite Em, <- app_assoc; reflexivity).
      rewrite blocks_snoc by (auto; rewrite app_length, firstn_length; lia). rewrite fold_left_app. cbn [fold_left].
      f_equal. f_equal. f_equal. rewrite Em, app_length. lia.
    + apply Nat.leb_gt in El. rewrite En at 1. rewrite splice_rest by lia.
      exists k, full, (rest ++ p). rewrite Em, <- app_assoc. split; [reflexivity|]. split; [exact Hk|]. rewrite !app_length. split; [lia|].
      rewrite len_step'. f_equal. f_equal. f_equal. rewrite ?app_length. lia.
Qed.
Lemma wrap_s_small n : 0 <= n < 2 ^ 31 -> wrap_s 32 n = n.
Proof. intros H. unfold wrap_s, to_signed. rewrite Z.mod_small by lia. change (2 ^ (32 - 1)) with (2 ^ 31). destruct (n <? 2 ^ 31) eqn:E; lia. Qed.
Lemma update_inv s m p : inv s m -> Z.of_nat (List.length p) < 2 ^ 31 -> inv (ripemd160_update s p) (m ++ p).
Proof.
  intros Hi Hl. unfold ripemd160_update. rewrite wrap_s_small by lia. rewrite Nat2Z.id, firstn_all.
  assert (Em : magic s = ripemd160_magic) by (destruct Hi as (? & ? & ? & _ & _ & _ & ->); reflexivity).
  rewrite Em, Z.eqb_refl. cbn [negb orb]. destruct (_ <? 0) eqn:E; [lia|]. apply update_loop_inv; auto.
Qed.
Lemma update_empty s : magic s = ripemd160_magic -> ripemd160_update s [] = s.
Proof. intros H. unfold ripemd160_update. rewrite H. reflexivity. Qed.

Lemma land_low x : Z.land x 0xFFFFffff = x mod 2 ^ 32.
Proof. change 0xFFFFffff with (Z.ones 32). apply Z.land_ones. lia. Qed.
Lemma le_bytes_app a b v : 0 <= v -> le_bytes (a + b) v = le_bytes a v ++ le_bytes b (v / 256 ^ Z.of_nat a).
Proof.
  revert v. induction a as [|a IH]; intros v Hv; [cbn [Nat.add le_bytes app Z.of_nat]; rewrite Z.pow_0_r, Z.div_1_r; reflexivity|].
  cbn [Nat.add le_bytes app]. f_equal. rewrite IH by (apply Z.div_pos; lia). f_equal. f_equal.
  rewrite Z.div_div by lia. f_equal. rewrite Nat2Z.inj_succ, Z.pow_succ_r by lia. reflexivity.
Qed.
Lemma le_bytes_mod n v : le_bytes n (v mod 256 ^ Z.of_nat n) = le_bytes n v.
Proof.
  rewrite <- (le_val_le_bytes_mod n v). apply le_bytes_le_val; [apply le_bytes_ok|now rewrite le_bytes_length].
Qed.
Lemma length_words L : 0 <= L < 2 ^ 64 ->
  le_bytes 4 (Z.land L 0xFFFFffff) ++ le_bytes 4 (Z.land (Z.shiftr L 32) 0xFFFFffff) = le_bytes 8 L.
Proof.
  intros H. rewrite !land_low, Z.shiftr_div_pow2 by lia. change (2 ^ 32) with (256 ^ Z.of_nat 4). rewrite !le_bytes_mod.
  symmetry. apply (le_bytes_app 4 4). lia.
Qed.
Lemma splice_end b L : List.length b = 64%nat -> 
  splice (splice b 56 (le_bytes 4 (Z.land L 0xFFFFffff))) 60 (le_bytes 4 (Z.land (Z.shiftr L 32) 0xFFFFffff)) =
  firstn 56 b ++ le_bytes 4 (Z.land L 0xFFFFffff) ++ le_bytes 4 (Z.land (Z.shiftr L 32) 0xFFFFffff).
Proof.
  intros Hb. unfold splice. rewrite !le_bytes_length. 
  assert (L56 : List.length (firstn 56 b) = 56%nat) by (rewrite firstn_length; lia).
  rewrite !firstn_app, !skipn_app, L56, le_bytes_length.
  rewrite (skipn_all2 (n := 60 + 4) (firstn 56 b)) by lia. rewrite (skipn_all2 (n := 60 + 4 - 56)) by (rewrite le_bytes_length; lia).
  rewrite (skipn_all2 (skipn _ b)) by (rewrite skipn_length; lia).
  rewrite firstn_firstn. change (Nat.min 60 56) with 56%nat. change (60 - 56)%nat with 4%nat. change (4 - 4)%nat with 0%nat.
  rewrite firstn_O, app_nil_r. rewrite (firstn_all2 (le_bytes 4 _)) by (rewrite le_bytes_length; lia).
  rewrite <- !app_assoc, ?app_nil_r. reflexivity.
Qed.
Lemma digest_spec s m : inv s m -> ripemd160_digest s = Some (RIPEMD160 m).
Proof.
  intros (k & full & rest & Em & Hk & Hr & ->). unfold ripemd160_digest. cbn [magic hh rlength buf bufpos]. rewrite Z.eqb_refl. cbn [negb].
  rewrite splice_rest by (cbn [List.length]; lia). cbn [List.length]. cbv zeta.
  remember (8 * Z.of_nat (List.length m) mod 2 ^ 64) as L eqn:EL.
  assert (HL : 0 <= L < 2 ^ 64) by (subst L; apply Z.mod_pos_bound; lia).
  assert (Hm : List.length m = (64 * k + List.length rest)%nat) by (rewrite Em, app_length; lia).
  unfold RIPEMD160. cbv zeta. 
  destruct (Nat.ltb 56 (List.length rest + 1)) eqn:E56.
  - apply Nat.ltb_lt in E56. rewrite compress_spec. cbn [magic hh rlength buf bufpos].
    rewrite splice_end, length_words by (auto; reflexivity). rewrite compress_spec. cbn [magic]. rewrite Z.eqb_refl. f_equal.
    assert (Ep : pad m = (full ++ ((rest ++ [128]) ++ repeat 0 (64 - (List.length rest + 1)))) ++ (firstn 56 (repeat 0 64) ++ le_bytes 8 L)).
    { unfold pad. rewrite <- EL, Em. repeat rewrite <- app_assoc. do 2 f_equal. cbn [app]. f_equal. rewrite app_assoc. f_equal.
      change (firstn 56 (repeat 0 64)) with (repeat 0 56). rewrite <- repeat_app. f_equal. rewrite app_length. 
      apply Nat2Z.inj. rewrite Z2Nat.id by (apply Z.mod_pos_bound; lia). symmetry. apply (Z.mod_unique_pos _ _ (- Z.of_nat k - 1)); lia. }
    rewrite Ep. rewrite app_length. 
    assert (L1 : List.length (full ++ ((rest ++ [128]) ++ repeat 0 (64 - (List.length rest + 1)))) = (64 * (k + 1))%nat) by (rewrite !app_length, repeat_length; cbn [List.length]; lia).
    assert (L2 : List.length (firstn 56 (repeat 0 64) ++ le_bytes 8 L) = 64%nat) by (rewrite app_length, le_bytes_length; reflexivity).
    rewrite L1, L2. replace ((64 * (k + 1) + 64) / 64)%nat with ((k + 1) + 1)%nat by (apply (Nat.div_unique _ _ _ 0); lia).
    rewrite blocks_snoc, blocks_snoc, !fold_left_app by (auto; rewrite ?app_length, ?repeat_length; cbn [List.length]; lia).
    cbn [fold_left]. unfold output. cbn [hh]. destruct (compress _ _) as [[[[a b] c] d] e]. cbn [wlist map concat]. rewrite app_nil_r. reflexivity.
  - apply Nat.ltb_ge in E56. cbn [magic hh rlength buf bufpos].
    rewrite splice_end, length_words by (auto; rewrite ?app_length, repeat_length; cbn [List.length]; lia).
    rewrite compress_spec. cbn [magic]. rewrite Z.eqb_refl. f_equal.
    remember (firstn 56 ((rest ++ [128]) ++ repeat 0 (64 - (List.length rest + 1))) ++ le_bytes 8 L) as B eqn:EB.
    assert (EB' : B = (rest ++ [128]) ++ repeat 0 (56 - (List.length rest + 1)) ++ le_bytes 8 L).
    { rewrite EB, firstn_app, firstn_all2 by (rewrite app_length; cbn [List.length]; lia). rewrite <- app_assoc. do 2 f_equal.
      rewrite app_length. cbn [List.length]. replace (64 - (List.length rest + 1))%nat with ((56 - (List.length rest + 1)) + 8)%nat by lia.
      rewrite repeat_app, firstn_app, repeat_length, Nat.sub_diag, firstn_O, app_nil_r. apply firstn_all2. rewrite repeat_length. lia. }
    assert (Ep : pad m = full ++ B).
    { unfold pad. rewrite <- EL, Em, EB'. repeat rewrite <- app_assoc. do 2 f_equal. cbn [app]. do 3 f_equal. rewrite app_length.
      apply Nat2Z.inj. rewrite Z2Nat.id by (apply Z.mod_pos_bound; lia). symmetry. apply (Z.mod_unique_pos _ _ (- Z.of_nat k)); lia. }
    assert (LB : List.length B = 64%nat) by (rewrite EB', !app_length, repeat_length, le_bytes_length; cbn [List.length]; lia).
    rewrite Ep, app_length, Hk, LB. replace ((64 * k + 64) / 64)%nat with (k + 1)%nat by (apply (Nat.div_unique _ _ _ 0); lia).
    rewrite blocks_snoc, fold_left_app by auto. cbn [fold_left]. unfold output. cbn [hh]. destruct (compress _ _) as [[[[a b] c] d] e]. cbn [wlist map concat]. rewrite app_nil_r. reflexivity.
Qed.
